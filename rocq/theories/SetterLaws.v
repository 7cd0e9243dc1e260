(** Algebraic laws of the setters: the last assignment wins, independent calls
    commute. *)
From Coq Require Import Ascii String.
From Coq Require Import NArith ZArith Bool Arith Lia List.
From Verif Require Import PyStr PyInt Codec Env HostModel UrlRecord Parser SearchParams UrlApi FlatParser.
From Verif Require Import Lemmas CodecProofs QuoteProofs LoopProofs FlatProofs WfProofs LooseProofs SetterProofs ParserProofs PathProofs ApiProofs ObjProofs GetSet.
From Verif Require Import SpecLaws.
Import ListNotations.
Open Scope N_scope.

Section Laws.
Variable E : env.

(** ** shapes *)
Definition port_value (sch v : str) : option (option N) :=
  match v with
  | [] => Some None
  | _ => let d := fst (span (fun c => mem c ASCII_DIGITS) (remove_tabs v)) in
         match flat_port (EE E) sch d with Ok p => match d with [] => None | _ => Some p end | Err _ => None end
  end.
Definition port_out (sch v : str) : res unit :=
  match v with
  | [] => Ok tt
  | _ => match flat_port (EE E) sch (fst (span (fun c => mem c ASCII_DIGITS) (remove_tabs v))) with Ok _ => Ok tt | Err e => Err e end
  end.
Lemma port_shape v o : set_attr E (SetPort v) o =
  if cannot_have_username_password_port (o_url o) then (o, Ok tt)
  else (mkobj (match port_value (scheme (o_url o)) v with Some p => set_port p (o_url o) | None => o_url o end) (o_list o), port_out (scheme (o_url o)) v).
Proof.
  cbn [set_attr]. cbv zeta. destruct (cannot_have_username_password_port (o_url o)); [reflexivity|]. unfold port_value, port_out.
  destruct v as [|c v]; [reflexivity|]. cbv zeta. rewrite reparse_port. unfold put_port. cbv zeta.
  destruct (flat_port _ _ _) as [p|e]; [|reflexivity]. destruct (fst _); reflexivity.
Qed.
Definition path_value (sch : str) (h : option host) (v : str) : list str := put_path (mkurl sch [] [] h None (PList []) None None) (remove_tabs v).
Lemma path_shape v o : set_attr E (SetPathname v) o =
  if has_opaque_path (o_url o) then (o, Ok tt) else (mkobj (set_path (PList (path_value (scheme (o_url o)) (uhost (o_url o)) v)) (o_url o)) (o_list o), Ok tt).
Proof. cbn [set_attr]. cbv zeta. destruct (has_opaque_path _); [reflexivity|]. rewrite reparse_path. reflexivity. Qed.
Definition write_fragment (f : option str) (u : urlrec) : urlrec :=
  match f with None => potentially_rstrip E (set_fragment None u) | Some _ => set_fragment f u end.
Definition write_query (q : option str) (u : urlrec) : urlrec :=
  match q with None => potentially_rstrip E (set_query None u) | Some _ => set_query q u end.
Definition hash_value (v : str) : option str := match v with [] => None | _ => Some (enc_fragment (remove_tabs (strip_char 35 v))) end.
Lemma hash_shape v o : set_attr E (SetHash v) o = (mkobj (write_fragment (hash_value v) (o_url o)) (o_list o), Ok tt).
Proof. cbn [set_attr]. cbv zeta. destruct v; [reflexivity|]. now rewrite reparse_fragment. Qed.
Definition query_list (q : option str) : pairs := parse_qsl (utf8_encode (match q with Some q => q | None => [] end)).
Definition search_value (sp : bool) (v : str) : option str :=
  match v with [] => None | _ => Some (utf8_percent_encode (remove_tabs (strip_char 63 v)) (if sp then SAFE_SPECIAL_QUERY else SAFE_QUERY) false) end.
Lemma search_shape v o : set_attr E (SetSearch v) o =
  (mkobj (write_query (search_value (is_special (o_url o)) v) (o_url o)) (query_list (search_value (is_special (o_url o)) v)), Ok tt).
Proof.
  cbn [set_attr]. cbv zeta. destruct v; [cbv iota; unfold attach_list; rewrite rstrip_query; reflexivity|]. rewrite reparse_query. reflexivity.
Qed.
Definition params_value (op : sp_op) (l : pairs) : option str := match sp_str (sp_apply op l) with [] => None | s => Some s end.
Lemma params_shape op o : params_op E op o = mkobj (write_query (params_value op (o_list o)) (o_url o)) (sp_apply op (o_list o)).
Proof. unfold params_op, params_update, params_value. cbv zeta. destruct (sp_str _); reflexivity. Qed.
Lemma query_shape c : on_query c -> exists V L, forall o,
  do_call E c o = mkobj (write_query (V (is_special (o_url o)) (o_list o)) (o_url o)) (L (is_special (o_url o)) (o_list o)) /\ outcome E c o = Ok tt.
Proof.
  intros [v|op].
  - exists (fun sp _ => search_value sp v), (fun sp _ => query_list (search_value sp v)). intros o. cbn [do_call outcome]. now rewrite search_shape.
  - exists (fun _ l => params_value op l), (fun _ l => sp_apply op l). intros o. cbn [do_call outcome]. now rewrite params_shape.
Qed.
Lemma hash_shape_ex c : on_hash c -> exists f, forall o, do_call E c o = mkobj (write_fragment f (o_url o)) (o_list o) /\ outcome E c o = Ok tt.
Proof. intros [v]. exists (hash_value v). intros o. cbn [do_call outcome]. now rewrite hash_shape. Qed.
Inductive wr := WUser (x : str) | WPass (x : str) | WPort (f : str -> option (option N)).
Definition write_up (w : wr) (u : urlrec) : urlrec :=
  match w with WUser x => set_username x u | WPass x => set_password x u
  | WPort f => match f (scheme u) with Some p => set_port p u | None => u end end.
Lemma user_port_shape s : on_user_port s -> exists w r, forall o, set_attr E s o =
  if cannot_have_username_password_port (o_url o) then (o, Ok tt) else (mkobj (write_up w (o_url o)) (o_list o), r (scheme (o_url o))).
Proof.
  intros [v|v|v].
  - exists (WUser (utf8_percent_encode v SAFE_USERINFO false)), (fun _ => Ok tt). reflexivity.
  - exists (WPass (utf8_percent_encode v SAFE_USERINFO false)), (fun _ => Ok tt). reflexivity.
  - exists (WPort (fun s => port_value s v)), (fun s => port_out s v). intros o. apply port_shape.
Qed.

(** ** scheme and host do not look at query and fragment *)
Definition same_front (u v : urlrec) : Prop :=
  scheme u = scheme v /\ username u = username v /\ password u = password v /\ uhost u = uhost v /\ port u = port v /\ has_opaque_path u = has_opaque_path v.
(** [u] with the path, query and fragment of [v] *)
Definition front_of (u v : urlrec) : urlrec := mkurl (scheme u) (username u) (password u) (uhost u) (port u) (path v) (query v) (fragment v).
Definition frontal (G : urlrec -> urlrec * res unit) : Prop :=
  (forall u, front_of (fst (G u)) u = fst (G u)) /\ (forall u, is_special (fst (G u)) = is_special u) /\
  (forall u v, same_front u v -> fst (G v) = front_of (fst (G u)) v /\ snd (G v) = snd (G u)).
Lemma front_same u : front_of u u = u. Proof. now destruct u. Qed.
Ltac fr := unfold front_of, same_front, set_host, set_port, set_scheme; cbn [scheme username password uhost port path query fragment fst snd].
Lemma file_host_frontal t : frontal (fun u => put_file_host (EE E) u t).
Proof.
  split; [|split].
  - intros u. unfold put_file_host. destruct (fst (span _ _)); [reflexivity|]. destruct (snd (host_parse _ _ _)); [reflexivity|]. apply front_same.
  - intros u. unfold put_file_host. destruct (fst (span _ _)); [reflexivity|]. destruct (snd (host_parse _ _ _)); reflexivity.
  - intros u v (A & B & C & D & F & G). unfold put_file_host, is_not_special. rewrite A. destruct (fst (span _ _)).
    + fr. now rewrite A, B, C, F.
    + destruct (snd (host_parse _ _ _)); fr; rewrite A, B, C, F; [auto|]. rewrite D. now destruct v.
Qed.
Lemma port_frontal t : frontal (fun u => put_port (EE E) u t).
Proof.
  split; [|split].
  - intros u. unfold put_port. cbv zeta. destruct (flat_port _ _ _); [|apply front_same]. destruct (fst (span _ _)); [apply front_same|reflexivity].
  - intros u. unfold put_port. cbv zeta. destruct (flat_port _ _ _); [|reflexivity]. destruct (fst (span _ _)); reflexivity.
  - intros u v (A & B & C & D & F & G). unfold put_port. cbv zeta. rewrite A. destruct (flat_port _ _ _); [destruct (fst (span _ _))|]; fr; rewrite A, B, C, D, ?F; now destruct v.
Qed.
Lemma same_front_host x u v : same_front u v -> same_front (set_host x u) (set_host x v).
Proof. intros (A & B & C & D & F & G). repeat split; auto. Qed.
Lemma host_frontal st t : frontal (fun u => put_host (EE E) st u t).
Proof.
  pose proof (file_host_frontal t) as (F1 & F2 & F3). split; [|split].
  - intros u. unfold put_host. destruct (str_eqb _ _); [apply F1|]. destruct (host_scan _ _ _) as [h r]. destruct (isc _ _).
    + destruct (_ =? _)%nat; [apply front_same|]. destruct (is_hostname_override _); [apply front_same|]. destruct (snd (host_parse _ _ _)); [|apply front_same].
      destruct (port_frontal (tl r)) as (P1 & _). exact (P1 (set_host (Some a) u)).
    + destruct (_ && _); [apply front_same|]. destruct (_ && _); [apply front_same|]. destruct (snd (host_parse _ _ _)); [reflexivity|apply front_same].
  - intros u. unfold put_host. destruct (str_eqb _ _); [apply F2|]. destruct (host_scan _ _ _) as [h r]. destruct (isc _ _).
    + destruct (_ =? _)%nat; [reflexivity|]. destruct (is_hostname_override _); [reflexivity|]. destruct (snd (host_parse _ _ _)); [|reflexivity].
      destruct (port_frontal (tl r)) as (_ & P1 & _). exact (P1 (set_host (Some a) u)).
    + destruct (_ && _); [reflexivity|]. destruct (_ && _); [reflexivity|]. destruct (snd (host_parse _ _ _)); reflexivity.
  - intros u v S. pose proof S as (A & B & C & D & F & G).
    assert (K : forall r, fst (v, r : res unit) = front_of (fst (u, r)) v /\ snd (v, r) = snd (u, r)). { intros r. fr. rewrite A, B, C, D, F. now destruct v. }
    unfold put_host. rewrite A. destruct (str_eqb _ _); [now apply F3|]. unfold is_special, is_not_special, includes_credentials. rewrite A, B, C, F.
    destruct (host_scan _ _ _) as [h r]. destruct (isc _ _).
    + destruct (_ =? _)%nat; [apply K|]. destruct (is_hostname_override _); [apply K|]. destruct (snd (host_parse _ _ _)) as [a|]; [|apply K].
      destruct (port_frontal (tl r)) as (_ & _ & P1). exact (P1 (set_host (Some a) u) (set_host (Some a) v) (same_front_host _ u v S)).
    + destruct (_ && _); [apply K|]. destruct (_ && _); [apply K|]. destruct (snd (host_parse _ _ _)); [|apply K]. fr. rewrite A, B, C, F. auto.
Qed.
Lemma scheme_host_shape st : on_scheme_host st -> exists G, frontal G /\ forall o, set_attr E st o = (mkobj (fst (G (o_url o))) (o_list o), snd (G (o_url o))).
Proof.
  intros [v|v|v].
  - exists (fun u => reparse E (v ++ $":") SCHEME_START u). split; [|reflexivity]. split; [|split].
    + intros u. rewrite reparse_scheme. destruct (scheme_split _) as [[s r]|]; [|apply front_same]. destruct (scheme_blocked _ _); [apply front_same|].
      unfold put_scheme. destruct (_ && _); reflexivity.
    + intros u. rewrite reparse_scheme. destruct (scheme_split _) as [[s r]|]; [|reflexivity]. destruct (scheme_blocked _ _) eqn:Q; [reflexivity|].
      assert (X : special_scheme (lower s) = is_special u).
      { unfold scheme_blocked, is_special, is_not_special in *. destruct (special_scheme (scheme u)), (special_scheme (lower s)); try reflexivity; discriminate Q. }
      unfold put_scheme, is_special in *. destruct (_ && _); exact X.
    + intros u w (A & B & C & D & F & G). rewrite !reparse_scheme. destruct (scheme_split _) as [[s r]|].
      2:{ fr. rewrite A, B, C, D, F. now destruct w. }
      unfold scheme_blocked, is_special, is_not_special, includes_credentials, put_scheme. rewrite A, B, C, D, F.
      match goal with |- context [if ?b then _ else _] => destruct b end.
      * fr. rewrite A, B, C, D, F. now destruct w.
      * destruct (_ && _); fr; rewrite B, C, D, ?F; auto.
  - exists (fun u => if has_opaque_path u then (u, Ok tt) else reparse E v HOST u). split.
    + destruct (host_frontal HOST (remove_tabs v)) as (F1 & F2 & F3). split; [|split].
      * intros u. destruct (has_opaque_path u); [apply front_same|]. rewrite reparse_host. apply F1.
      * intros u. destruct (has_opaque_path u); [reflexivity|]. rewrite reparse_host. apply F2.
      * intros u w S. pose proof S as (A & B & C & D & F & G). rewrite G. destruct (has_opaque_path w); [|rewrite !reparse_host; now apply F3].
        fr. rewrite A, B, C, D, F. now destruct w.
    + intros o. cbn [set_attr]. cbv zeta. destruct (has_opaque_path _); [cbn [fst snd]; now rewrite obj_eta|reflexivity].
  - exists (fun u => if has_opaque_path u then (u, Ok tt) else reparse E v HOSTNAME u). split.
    + destruct (host_frontal HOSTNAME (remove_tabs v)) as (F1 & F2 & F3). split; [|split].
      * intros u. destruct (has_opaque_path u); [apply front_same|]. rewrite reparse_hostname. apply F1.
      * intros u. destruct (has_opaque_path u); [reflexivity|]. rewrite reparse_hostname. apply F2.
      * intros u w S. pose proof S as (A & B & C & D & F & G). rewrite G. destruct (has_opaque_path w); [|rewrite !reparse_hostname; now apply F3].
        fr. rewrite A, B, C, D, F. now destruct w.
    + intros o. cbn [set_attr]. cbv zeta. destruct (has_opaque_path _); [cbn [fst snd]; now rewrite obj_eta|reflexivity].
Qed.

(** ** independent calls commute *)
Ltac cases := repeat match goal with
  | |- context [match ?x with _ => _ end] =>
      lazymatch x with context [match _ with _ => _ end] => fail | _ => destruct x eqn:? end
  end.
Lemma path_list_opaque u : (forall p, path u <> POpaque p) -> exists l, path u = PList l.
Proof. destruct (path u) as [s|l]; [intros H; now destruct (H s)|eauto]. Qed.
Definition commute (o : urlobj) (c d : call) : Prop :=
  do_call E d (do_call E c o) = do_call E c (do_call E d o) /\
  outcome E d (do_call E c o) = outcome E d o /\ outcome E c (do_call E d o) = outcome E c o.
Ltac fields := cbn [fst snd o_url o_list scheme username password uhost port path query fragment].
Ltac shapes := unfold write_fragment, write_query, potentially_rstrip, cannot_have_username_password_port, has_opaque_path, is_special,
  set_fragment, set_query, set_username, set_password, set_port, set_path in *.

Lemma write_query_frontal G q u : frontal G -> fst (G (write_query q u)) = write_query q (fst (G u)) /\ snd (G (write_query q u)) = snd (G u).
Proof.
  intros (F1 & F2 & F3). assert (SF : same_front u (write_query q u)).
  { destruct u as [a b c d e f g h]. destruct q, f, h; repeat split. }
  destruct (F3 _ _ SF) as [A B]. split; [|exact B]. rewrite A. rewrite <- (F1 u). destruct (fst (G u)) as [a b c d e f g h]. destruct u as [a' b' c' d' e' f' g' h'].
  destruct q, f', h'; reflexivity.
Qed.
Lemma write_fragment_frontal G q u : frontal G -> fst (G (write_fragment q u)) = write_fragment q (fst (G u)) /\ snd (G (write_fragment q u)) = snd (G u).
Proof.
  intros (F1 & F2 & F3). assert (SF : same_front u (write_fragment q u)).
  { destruct u as [a b c d e f g h]. destruct q, f, g; repeat split. }
  destruct (F3 _ _ SF) as [A B]. split; [|exact B]. rewrite A. rewrite <- (F1 u). destruct (fst (G u)) as [a b c d e f g h]. destruct u as [a' b' c' d' e' f' g' h'].
  destruct q, f', g'; reflexivity.
Qed.
Lemma special_query q u : is_special (write_query q u) = is_special u.
Proof. destruct u as [a b c d e f g h]. destruct q, f, h; reflexivity. Qed.
Lemma special_fragment q u : is_special (write_fragment q u) = is_special u.
Proof. destruct u as [a b c d e f g h]. destruct q, f, g; reflexivity. Qed.
Definition guarded (w : wr) (o : urlobj) : urlobj :=
  if cannot_have_username_password_port (o_url o) then o else mkobj (write_up w (o_url o)) (o_list o).
(** the user/port calls are frontal, too *)
Definition gup (w : wr) (r : str -> res unit) (u : urlrec) : urlrec * res unit :=
  if cannot_have_username_password_port u then (u, Ok tt) else (write_up w u, r (scheme u)).
Lemma gup_frontal w r : frontal (gup w r).
Proof.
  split; [|split].
  - intros u. unfold gup. destruct (cannot_have_username_password_port u); [apply front_same|]. destruct w; [reflexivity..|]. cbn [fst write_up]. destruct (f _); [reflexivity|apply front_same].
  - intros u. unfold gup. destruct (cannot_have_username_password_port u); [reflexivity|]. destruct w; [reflexivity..|]. cbn [fst write_up]. destruct (f _); reflexivity.
  - intros u v (A & B & C & D & F & G). unfold gup, cannot_have_username_password_port. rewrite A, D. destruct (_ || _).
    + fr. rewrite A, B, C, D, F. now destruct v.
    + destruct w as [x|x|g]; cbn [write_up]; unfold set_username, set_password, set_port; fr; rewrite A, ?B, ?C, ?D, ?F; auto.
      destruct (g _); fr; rewrite ?A, ?B, ?C, ?D, ?F; [auto|now destruct v].
Qed.
Lemma front_call s : on_scheme_host s \/ on_user_port s -> exists G, frontal G /\ forall o, set_attr E s o = (mkobj (fst (G (o_url o))) (o_list o), snd (G (o_url o))).
Proof.
  intros [H|H]; [now apply scheme_host_shape|]. destruct (user_port_shape s H) as (w & r & K). exists (gup w r). split; [apply gup_frontal|].
  intros o. rewrite K. unfold gup. destruct (cannot_have_username_password_port (o_url o)); [cbn [fst snd]; now rewrite obj_eta|reflexivity].
Qed.
Lemma front_query s c o : on_scheme_host s \/ on_user_port s -> on_query c -> commute o (CSet s) c.
Proof.
  intros Hs Hc. destruct (front_call s Hs) as (G & FG & K). destruct (query_shape c Hc) as (V & L & Q). pose proof FG as (F1 & F2 & F3). unfold commute.
  destruct (Q o) as [Q1 Q2]. destruct (Q (do_call E (CSet s) o)) as [Q3 Q4]. rewrite Q1, Q2, Q3, Q4. cbn [do_call outcome]. rewrite !K. cbn [fst snd o_url o_list]. rewrite F2.
  destruct (write_query_frontal G (V (is_special (o_url o)) (o_list o)) (o_url o) FG) as [A B]. now rewrite A, B.
Qed.
Lemma front_hash s c o : on_scheme_host s \/ on_user_port s -> on_hash c -> commute o (CSet s) c.
Proof.
  intros Hs Hc. destruct (front_call s Hs) as (G & FG & K). destruct (hash_shape_ex c Hc) as (f & Q). unfold commute.
  destruct (Q o) as [Q1 Q2]. destruct (Q (do_call E (CSet s) o)) as [Q3 Q4]. rewrite Q1, Q2, Q3, Q4. cbn [do_call outcome]. rewrite !K. cbn [fst snd o_url o_list].
  destruct (write_fragment_frontal G f (o_url o) FG) as [A B]. now rewrite A, B.
Qed.
Lemma up_path s v o : on_user_port s -> commute o (CSet s) (CSet (SetPathname v)).
Proof.
  intros H. destruct (user_port_shape s H) as (w & r & K). unfold commute. cbn [do_call outcome]. rewrite !K, !path_shape.
  destruct o as [[a b c d e f g h] l]. destruct f as [p|ps].
  - cbn [o_url has_opaque_path path fst snd]. destruct (cannot_have_username_password_port _); cbn [fst snd o_url has_opaque_path path]; [auto|].
    destruct w as [x|x|k]; cbn [write_up]; shapes; fields; auto. destruct (k a); fields; auto.
  - cbn [o_url has_opaque_path path fst snd]. unfold cannot_have_username_password_port. cbn [o_url scheme uhost set_path].
    destruct (_ || _); cbn [fst snd o_url has_opaque_path path]; [auto|].
    destruct w as [x|x|k]; cbn [write_up]; shapes; fields; auto. destruct (k a); fields; auto.
Qed.
Lemma path_query v c o : on_query c -> commute o (CSet (SetPathname v)) c.
Proof.
  intros Hc. destruct (query_shape c Hc) as (V & L & Q). unfold commute. rewrite !(proj1 (Q _)), !(proj2 (Q _)). cbn [do_call outcome]. rewrite !path_shape.
  destruct o as [[a b cc d e f g h] l]. destruct f as [p|ps]; shapes; fields.
  - destruct (V _ _); [|destruct h]; fields; auto.
  - destruct (V _ _); fields; auto.
Qed.
Lemma path_hash v c o : on_hash c -> commute o (CSet (SetPathname v)) c.
Proof.
  intros Hc. destruct (hash_shape_ex c Hc) as (ff & Q). unfold commute. rewrite !(proj1 (Q _)), !(proj2 (Q _)). cbn [do_call outcome]. rewrite !path_shape.
  destruct o as [[a b cc d e f g h] l]. destruct f as [p|ps]; shapes; fields.
  - destruct ff; [|destruct g]; fields; auto.
  - destruct ff; fields; auto.
Qed.
Lemma query_hash c d o : (forall p, path (o_url o) <> POpaque p) -> on_query c -> on_hash d -> commute o c d.
Proof.
  intros Hp Hc Hd. destruct (path_list_opaque _ Hp) as (ps & P). destruct (query_shape c Hc) as (V & L & Q). destruct (hash_shape_ex d Hd) as (ff & R).
  unfold commute. rewrite !(proj2 (Q _)), !(proj2 (R _)), !(proj1 (Q _)), !(proj1 (R _)). fields. rewrite special_fragment. split; [|auto].
  destruct o as [[a b cc dd e f g h] l]. cbn [o_url path] in P. subst f. destruct ff, (V _ _); reflexivity.
Qed.
Theorem independent_commute o c d : independent o c d -> commute o c d /\ commute o d c.
Proof.
  intros H. assert (K : commute o c d).
  { destruct H as [v w|v w|v w|s v H|s c H H0|s c H H0|v c H|v c H|s c H H0|s c H H0|c d H H0 H1].
    - unfold commute. cbn [do_call outcome set_attr]. cbv zeta. destruct o as [[a b c d e f g h] l]. shapes. fields. destruct (null_or_empty_host d || str_eqb a $"file") eqn:Q; fields; rewrite ?Q; fields; rewrite ?Q; auto.
    - unfold commute. cbn [do_call outcome]. rewrite !port_shape. cbn [set_attr]. cbv zeta. destruct o as [[a b c d e f g h] l]. shapes. fields.
      destruct (null_or_empty_host d || str_eqb a $"file") eqn:Q; fields; rewrite ?Q; fields; [auto|]. destruct (port_value a w); fields; rewrite ?Q; auto.
    - unfold commute. cbn [do_call outcome]. rewrite !port_shape. cbn [set_attr]. cbv zeta. destruct o as [[a b c d e f g h] l]. shapes. fields.
      destruct (null_or_empty_host d || str_eqb a $"file") eqn:Q; fields; rewrite ?Q; fields; [auto|]. destruct (port_value a w); fields; rewrite ?Q; auto.
    - now apply up_path.
    - apply front_query; auto.
    - apply front_hash; auto.
    - now apply path_query.
    - now apply path_hash.
    - apply front_query; auto.
    - apply front_hash; auto.
    - now apply query_hash. }
  split; [exact K|]. destruct K as (A & B & C). repeat split; auto.
Qed.

(** ** the last assignment wins *)
Definition wins (s t : setter) (o : urlobj) : Prop := set_attr E t (fst (set_attr E s o)) = set_attr E t o.
Lemma username_wins v w o : wins (SetUsername v) (SetUsername w) o.
Proof. unfold wins. cbn [set_attr]. cbv zeta. destruct o as [[a b c d e f g h] l]. shapes. fields. destruct (null_or_empty_host d || str_eqb a $"file") eqn:Q; fields; rewrite ?Q; fields; rewrite ?Q; auto. Qed.
Lemma password_wins v w o : wins (SetPassword v) (SetPassword w) o.
Proof. unfold wins. cbn [set_attr]. cbv zeta. destruct o as [[a b c d e f g h] l]. shapes. fields. destruct (null_or_empty_host d || str_eqb a $"file") eqn:Q; fields; rewrite ?Q; fields; rewrite ?Q; auto. Qed.
Lemma pathname_wins v w o : wins (SetPathname v) (SetPathname w) o.
Proof. unfold wins. rewrite !path_shape. destruct o as [[a b c d e f g h] l]. destruct f; reflexivity. Qed.
Lemma rstrip_idem p s : rstrip_by p (rstrip_by p s) = rstrip_by p s.
Proof.
  unfold rstrip_by. rewrite rev_involutive. f_equal. induction (rev s) as [|c t IH]; [reflexivity|]. cbn [drop_while]. destruct (p c) eqn:Q; [exact IH|].
  cbn [drop_while]. now rewrite Q.
Qed.
Lemma hash_wins v w o : has_opaque_path (o_url o) = false \/ v <> [] \/ w = [] -> wins (SetHash v) (SetHash w) o.
Proof.
  intros H. unfold wins. rewrite !hash_shape. fields. destruct o as [[a b c d e f g h] l]. unfold hash_value. shapes. fields. f_equal. f_equal.
  destruct f as [s|ps].
  2:{ destruct v, w; reflexivity. }
  destruct v as [|x v].
  - destruct H as [H|[H|H]]; [discriminate|congruence|]. subst w. destruct g; [reflexivity|]. fields. now rewrite rstrip_idem.
  - destruct w; reflexivity.
Qed.
Lemma search_wins v w o : has_opaque_path (o_url o) = false \/ v <> [] \/ w = [] -> wins (SetSearch v) (SetSearch w) o.
Proof.
  intros H. unfold wins. rewrite !search_shape. fields. rewrite special_query. destruct o as [[a b c d e f g h] l]. f_equal. fields. f_equal. unfold search_value. fields. shapes.
  destruct f as [s|ps].
  2:{ destruct v, w; reflexivity. }
  destruct v as [|x v].
  - destruct H as [H|[H|H]]; [discriminate|congruence|]. subst w. fields. destruct h; [reflexivity|]. fields. now rewrite rstrip_idem.
  - destruct w; reflexivity.
Qed.
Lemma href_wins c w o : snd (set_attr E (SetHref w) o) = Ok tt -> set_attr E (SetHref w) (do_call E c o) = set_attr E (SetHref w) o.
Proof. cbn [set_attr]. cbv zeta. destruct (snd (parse_new _ _ _ _)); [reflexivity|discriminate]. Qed.
(** a port or host name that is ignored or refused leaves the earlier one *)
Definition ineffective (t : setter) (o o1 : urlobj) : Prop := exists r, set_attr E t o = (o, r) /\ set_attr E t o1 = (o1, r).
Lemma port_wins v w o : wins (SetPort v) (SetPort w) o \/ ineffective (SetPort w) o (fst (set_attr E (SetPort v) o)).
Proof.
  unfold wins, ineffective. rewrite !port_shape. destruct o as [[a b c d e f g h] l]. shapes. fields. destruct (null_or_empty_host d || str_eqb a $"file") eqn:Q; fields.
  - left. now rewrite Q.
  - destruct (port_value a w) eqn:W; [left|right; exists (port_out a w)]; destruct (port_value a v); fields; rewrite Q; fields; rewrite ?W; auto.
Qed.
Lemma put_hostname t : forall u,
  (exists r, forall x, put_host (EE E) HOSTNAME u t = (u, r) /\ put_host (EE E) HOSTNAME (set_host x u) t = (set_host x u, r)) \/
  (exists y r, forall x, put_host (EE E) HOSTNAME u t = (set_host y u, r) /\ put_host (EE E) HOSTNAME (set_host x u) t = (set_host y u, r)).
Proof.
  intros u. unfold put_host, put_file_host, is_special, is_not_special, includes_credentials. cbn [scheme username password port set_host].
  destruct (str_eqb (scheme u) $"file").
  - destruct (fst (span _ _)) as [|c h]; [right; do 2 eexists; intros x; split; reflexivity|].
    destruct (snd (host_parse _ _ _)) as [a|e]; [right; do 2 eexists; intros x; split; reflexivity|left; eexists; intros x; split; reflexivity].
  - destruct (host_scan _ _ _) as [h r]. cbn [is_hostname_override]. destruct (isc _ _).
    + left. destruct (_ =? _)%nat; eexists; intros x; split; reflexivity.
    + destruct (_ && _); [left; eexists; intros x; split; reflexivity|]. destruct (_ && _); [left; eexists; intros x; split; reflexivity|].
      destruct (snd (host_parse _ _ _)) as [a|e]; [right; do 2 eexists; intros x; split; reflexivity|left; eexists; intros x; split; reflexivity].
Qed.
Lemma hostname_wins v w o : wins (SetHostname v) (SetHostname w) o \/ ineffective (SetHostname w) o (fst (set_attr E (SetHostname v) o)).
Proof.
  unfold wins, ineffective. cbn [set_attr]. cbv zeta. destruct (has_opaque_path (o_url o)) eqn:Q; [left; cbn [fst]; now rewrite Q|].
  rewrite !reparse_hostname. destruct (put_hostname (remove_tabs v) (o_url o)) as [(r1 & H1)|(y1 & r1 & H1)].
  - left. destruct (H1 None) as [H2 _]. rewrite H2. unfold with_url. cbn [fst snd o_url o_list]. now rewrite Q, ?reparse_hostname.
  - destruct (H1 None) as [H2 _]. rewrite H2. unfold with_url. cbn [fst snd o_url o_list]. change (has_opaque_path (set_host y1 (o_url o))) with (has_opaque_path (o_url o)). rewrite Q.
    rewrite ?reparse_hostname. destruct (put_hostname (remove_tabs w) (o_url o)) as [(r & H)|(y & r & H)]; destruct (H y1) as [K1 K2]; rewrite K1, K2; cbn [fst snd].
    + right. exists r. now rewrite obj_eta.
    + now left.
Qed.
Lemma last_wins o v w :
  let after s := fst (set_attr E s o) in
  let ineffective t o1 := exists r, set_attr E t o = (o, r) /\ set_attr E t o1 = (o1, r) in
  set_attr E (SetUsername w) (after (SetUsername v)) = set_attr E (SetUsername w) o /\
  set_attr E (SetPassword w) (after (SetPassword v)) = set_attr E (SetPassword w) o /\
  set_attr E (SetPathname w) (after (SetPathname v)) = set_attr E (SetPathname w) o /\
  (has_opaque_path (o_url o) = false \/ v <> [] \/ w = [] ->
   set_attr E (SetHash w) (after (SetHash v)) = set_attr E (SetHash w) o /\
   set_attr E (SetSearch w) (after (SetSearch v)) = set_attr E (SetSearch w) o) /\
  (set_attr E (SetPort w) (after (SetPort v)) = set_attr E (SetPort w) o \/ ineffective (SetPort w) (after (SetPort v))) /\
  (set_attr E (SetHostname w) (after (SetHostname v)) = set_attr E (SetHostname w) o \/ ineffective (SetHostname w) (after (SetHostname v))) /\
  (forall c, snd (set_attr E (SetHref w) o) = Ok tt -> set_attr E (SetHref w) (do_call E c o) = set_attr E (SetHref w) o).
Proof.
  cbv zeta. split; [apply username_wins|]. split; [apply password_wins|]. split; [apply pathname_wins|].
  split; [intros H; split; [now apply hash_wins|now apply search_wins]|]. split; [apply port_wins|]. split; [apply hostname_wins|].
  intros c. apply href_wins.
Qed.
End Laws.
