(** What is logged does not depend on the encoding. *)
From Coq Require Import Ascii String.
From Coq Require Import NArith ZArith Bool Arith Lia List.
From Verif Require Import PyStr PyInt Codec Env HostModel UrlRecord Parser AnyCodec.
From Verif Require Import SpecText SpecUrl FlatParser Lemmas CodecProofs QuoteProofs LoopProofs FlatProofs AnyCodecProofs.
From Verif Require Import SpecReference SpecCodec.
Import ListNotations.
Open Scope N_scope.

Definition unit_log1 (c : N) (t : str) : log := fst (check_unit c t new_url).
Lemma check_unit_log c t u : check_unit c t u = (unit_log1 c t, (u, Ok tt)).
Proof. unfold unit_log1, check_unit, bind, when, logm, ret. destruct (_ && _); destruct (_ && _); reflexivity. Qed.
Fixpoint frag_log (rest : str) : log := match rest with [] => [] | c :: t => unit_log1 c t ++ frag_log t end.
Fixpoint query_log (rest : str) : log :=
  match rest with [] => [] | c :: t => if c =? 35 then [] else unit_log1 c t ++ query_log t end.
Lemma fragment_loop_log rest : forall i buffer u, fst (fragment_loop rest i buffer u) = frag_log rest.
Proof.
  induction rest as [|c t IH]; intros i buffer u; cbn [fragment_loop frag_log].
  - unfold when. destruct (negb _); [|reflexivity]. unfold bind, fragment_append, bind, get, modify, raise, ret. destruct (fragment u); reflexivity.
  - unfold bind at 1. rewrite check_unit_log. specialize (IH (S i) (buffer ++ [c]) u). destruct (fragment_loop t (S i) (buffer ++ [c]) u). cbn [fst] in *. now rewrite IH.
Qed.
Lemma fragment_loop_eof rest : forall i buffer u, match snd (snd (fragment_loop rest i buffer u)) with Ok r => fst r = EOF | Err _ => True end.
Proof.
  induction rest as [|c t IH]; intros i buffer u; cbn [fragment_loop].
  - unfold when. destruct (negb _); [|reflexivity]. unfold bind, fragment_append, bind, get, modify, raise, ret. destruct (fragment u); reflexivity.
  - unfold bind at 1. rewrite check_unit_log. specialize (IH (S i) (buffer ++ [c]) u). destruct (fragment_loop t (S i) (buffer ++ [c]) u) as [l [v r]]. exact IH.
Qed.
Lemma any_query_log {X} (cd : str -> anycodec X) enc rest : forall i buffer u, query u <> None -> fst (any_query_loop cd None enc rest i buffer u) = query_log rest.
Proof.
  assert (F : forall buffer u, query u <> None -> exists v r, any_flush cd enc buffer u = ([], (v, Ok r))).
  { intros buffer u Q. unfold any_flush, bind, get. cbv zeta. destruct (if str_eqb _ _ then _ else _); [do 2 eexists; reflexivity|].
    unfold query_append, bind, get, modify, ret. destruct (query u); [do 2 eexists; reflexivity|congruence]. }
  induction rest as [|c t IH]; intros i buffer u Q; cbn [any_query_loop query_log].
  - destruct (length buffer =? 0)%nat; [reflexivity|]. destruct (F buffer u Q) as (v & r & R). unfold bind. rewrite R. destruct r; reflexivity.
  - cbn [overridden negb andb]. destruct (c =? 35).
    + destruct (F buffer u Q) as (v & r & R). unfold bind. rewrite R. destruct r; reflexivity.
    + unfold bind. rewrite check_unit_log. specialize (IH (S i) (buffer ++ [c]) u Q). destruct (any_query_loop cd None enc t (S i) (buffer ++ [c]) u). cbn [fst] in *. now rewrite IH.
Qed.
Lemma utf8_query_log E rest u : query u = Some [] -> exists v r,
  query_loop E None $"utf-8" rest 0 [] u = (query_log rest, (v, Ok r)) /\
  r = (FRAGMENT, match snd (span (fun c => negb (c =? 35)) rest) with [] => length (until_hash rest) | _ => S (length (until_hash rest)) end).
Proof.
  intros Q. rewrite <- query_char. pose proof (any_query_log (fun e => char_codec (codec E e)) $"utf-8" rest 0%nat [] u) as L.
  pose proof (run_any_query (fun e => char_codec (codec E e)) $"utf-8" rest 0%nat [] u Q) as R. unfold run in R. rewrite <- span_until in *.
  destruct (any_query_loop _ None $"utf-8" rest 0 [] u) as [l [v r]]. cbn [fst snd] in *. rewrite L by congruence.
  destruct (span _ rest) as [b t]. cbn [fst snd]. unfold any_query in R. change (query_encoding u $"utf-8") with $"utf-8" in R. rewrite str_eqb_refl in R. cbv zeta in R.
  destruct t as [|c t]; injection R as -> ->; cbn [plain_out]; do 2 eexists; split; reflexivity.
Qed.
Lemma state_is_query (st : pstate) : {st = QUERY} + {st <> QUERY}.
Proof. destruct st; (now left) || (right; discriminate). Qed.
Section Log.
Context {X : Type} (cd : str -> anycodec X) (E : env) (base : option urlrec) (enc : str).
Lemma fragment_any n rest u v : fst (any_fsm cd E n base enc None FRAGMENT rest u) = fst (run_fsm n E base $"utf-8" None FRAGMENT rest v).
Proof.
  destruct n as [|n]; [reflexivity|]. cbn [any_fsm run_fsm any_step step]. unfold parse_fragment, bind.
  pose proof (fragment_loop_log rest 0 [] u) as L1. pose proof (fragment_loop_log rest 0 [] v) as L2.
  pose proof (fragment_loop_eof rest 0 [] u) as E1. pose proof (fragment_loop_eof rest 0 [] v) as E2.
  destruct (fragment_loop rest 0 [] u) as [l1 [u1 [r1|e1]]], (fragment_loop rest 0 [] v) as [l2 [v2 [r2|e2]]]; cbn [fst snd] in *; subst l1 l2; unfold ret;
    rewrite ?E1, ?E2; destruct n; cbn [any_fsm run_fsm]; unfold ret; cbn [fst]; now rewrite ?app_nil_r.
Qed.
Definition log_rel (a : log * (urlrec * res (option X))) (b : log * (urlrec * res unit)) : Prop :=
  exists t, fst b = fst a ++ t /\ ((forall x, snd (snd a) <> Ok (Some x)) -> t = []).
Lemma log_rel_same a b : fst a = fst b -> log_rel a b.
Proof. intros H. exists []. split; [now rewrite app_nil_r|reflexivity]. Qed.
Lemma query_rel n rest u : query u = Some [] -> log_rel (any_fsm cd E n base enc None QUERY rest u) (run_fsm n E base $"utf-8" None QUERY rest u).
Proof.
  intros Q. destruct n as [|n]; [now apply log_rel_same|].
  pose proof (any_query_log cd enc rest 0%nat [] u) as L1. pose proof (run_any_query cd enc rest 0 [] u Q) as R1. unfold run in R1.
  destruct (utf8_query_log E rest u Q) as (v & r & L2 & R2).
  change (any_fsm cd E (S n) base enc None QUERY rest) with
    (bind (any_query_loop cd None enc rest 0 []) (fun r => match r with inl x => ret (Some x) | inr r => any_fsm cd E n base enc None (fst r) (skipn (snd r) rest) end)).
  change (run_fsm (S n) E base $"utf-8" None QUERY rest) with
    (bind (query_loop E None $"utf-8" rest 0 []) (fun r => run_fsm n E base $"utf-8" None (fst r) (skipn (snd r) rest))).
  unfold bind. rewrite L2. rewrite <- span_until in R2. destruct (any_query_loop cd None enc rest 0 [] u) as [l [w q]]. cbn [fst snd] in *. rewrite L1 by congruence. clear L1 L2.
  destruct (span _ rest) as [b t]. cbn [fst snd app] in *. destruct (any_query cd enc u b) as [x|y].
  - injection R1 as -> ->. unfold ret. exists (fst (run_fsm n E base $"utf-8" None (fst r) (skipn (snd r) rest) v)). split.
    + rewrite app_nil_r. now destruct (run_fsm n E base _ None _ _ v).
    + intros H. now elim (H x).
  - assert (K : q = Ok (inr r)) by (subst r; cbv zeta in R1; destruct t; injection R1 as _ ->; reflexivity).
    rewrite K. replace (fst r) with FRAGMENT by (now subst r). apply log_rel_same.
    pose proof (fragment_any n (skipn (snd r) rest) w v) as F.
    destruct (any_fsm cd E n base enc None FRAGMENT (skipn (snd r) rest) w), (run_fsm n E base $"utf-8" None FRAGMENT (skipn (snd r) rest) v). cbn [fst] in *. now rewrite F.
Qed.
Lemma fsm_rel n : forall st rest u, st <> QUERY -> log_rel (any_fsm cd E n base enc None st rest u) (run_fsm n E base $"utf-8" None st rest u).
Proof.
  induction n as [|n IH]; intros st rest u NQ; [apply log_rel_same; destruct st; reflexivity|].
  destruct st; try congruence; try (apply log_rel_same; reflexivity);
  match goal with |- log_rel (any_fsm _ _ _ _ _ _ ?st _ _) _ => set (s := st) in * end;
  (assert (G1 : any_fsm cd E (S n) base enc None s rest = bind (bind (step E base $"utf-8" None s rest) (fun r => ret (inr r)))
    (fun r => match r with inl x => ret (Some x) | inr r => any_fsm cd E n base enc None (fst r) (skipn (snd r) rest) end)) by reflexivity);
  (assert (G2 : run_fsm (S n) E base $"utf-8" None s rest = bind (step E base $"utf-8" None s rest) (fun r => run_fsm n E base $"utf-8" None (fst r) (skipn (snd r) rest))) by reflexivity);
  rewrite G1, G2; clear G1 G2; unfold bind;
  (assert (FL : s = FRAGMENT \/ flow 0 rest (run (step E base $"utf-8" None s rest) u)) by (first [now left|right; apply flow_step; discriminate]));
  (assert (FF : s = FRAGMENT -> match snd (snd (step E base $"utf-8" None s rest u)) with Ok r => fst r = EOF | Err _ => True end) by (first [discriminate|intros _; apply fragment_loop_eof]));
  clearbody s; unfold run in FL;
  destruct (step E base $"utf-8" None s rest u) as [l [v [[st' k]|e]]]; cbn [fst snd] in *; try (now apply log_rel_same); unfold ret; cbn [fst snd app];
  (assert (REL : log_rel (any_fsm cd E n base enc None st' (skipn k rest) v) (run_fsm n E base $"utf-8" None st' (skipn k rest) v));
   [|destruct REL as (t & T1 & T2); exists t; destruct (any_fsm cd E n base enc None st' (skipn k rest) v), (run_fsm n E base $"utf-8" None st' (skipn k rest) v); cbn [fst snd] in *; rewrite T1, ?app_nil_r; cbn [app]; split; [now rewrite ?app_nil_r, ?app_assoc|exact T2]]);
  (destruct (state_is_query st') as [->|NE]; [|now apply IH]);
  (destruct FL as [->|FL]; [specialize (FF eq_refl); discriminate FF|]); unfold flow in FL; cbn [fst snd] in FL; apply query_rel; apply FL.
Qed.
End Log.

Theorem any_log {X} (cd : str -> anycodec X) E s base enc :
  exists t : log, fst (parse_new E s base UTF8) = (fst (any_new cd E s base enc) ++ t)%list /\
    ((forall x, snd (any_new cd E s base enc) <> Ok (inl x)) -> t = []).
Proof.
  unfold parse_new, any_new, any_into, parse_into. rewrite normalize_utf8. unfold bind.
  assert (W : forall b, exists l, when b (logm VInvalidURLUnit) new_url = (l, (new_url, Ok tt))) by (intros []; eexists; reflexivity).
  destruct (W (needs_strip s)) as [l1 ->]. destruct (W (existsb is_tab_newline (strip_c0 s))) as [l2 ->].
  generalize FSM_FUEL. intros n.
  destruct (fsm_rel cd E base (normalize_encoding E enc) n SCHEME_START (remove_tabs (strip_c0 s)) new_url) as (t & T1 & T2); [discriminate|].
  destruct (any_fsm cd E n base (normalize_encoding E enc) None SCHEME_START (remove_tabs (strip_c0 s)) new_url) as [la [ua ra]].
  destruct (run_fsm n E base $"utf-8" None SCHEME_START (remove_tabs (strip_c0 s)) new_url) as [lb [ub rb]]. cbn [fst snd] in *.
  exists t. assert (EQ : l1 ++ l2 ++ lb = (l1 ++ l2 ++ la) ++ t) by (rewrite T1, !app_assoc; reflexivity).
  destruct ra as [[x|]|e]; destruct rb; cbn [fst snd]; (split; [exact EQ|]); intros H; try (now elim (H x)); apply T2; intros y; discriminate.
Qed.
Theorem plain_log E s base enc : snd (parse_new E s base enc) <> Err EUnicode -> fst (parse_new E s base enc) = fst (parse_new E s base UTF8).
Proof.
  intros H. destruct (any_log (fun e => char_codec (codec E e)) E s base enc) as (t & T1 & T2). rewrite T1.
  rewrite <- new_char in *. destruct (any_new (fun e => char_codec (codec E e)) E s base enc) as [l [[[]|u]|e]]; cbn [plain_result fst snd] in *.
  - now elim H.
  - rewrite T2 by discriminate. now rewrite app_nil_r.
  - rewrite T2 by discriminate. now rewrite app_nil_r.
Qed.
