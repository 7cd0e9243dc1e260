(** The heap version of the parser computes what the value version computes, and
    writes only to the record it was given and to lists that no protected record
    refers to. *)
From Coq Require Import Ascii String.
From Coq Require Import NArith ZArith Bool Arith Lia List.
From Verif Require Import PyStr PyInt Codec Env HostModel UrlRecord Parser HeapParser.
Import ListNotations.
Open Scope N_scope.

(* ---------- lists ---------- *)
Lemma upd_length {A} i (v : A) l : length (upd i v l) = length l.
Proof. revert i; induction l as [|x l IH]; intros [|i]; cbn [upd length]; auto. Qed.
Lemma nth_upd_same {A} i (v d : A) l : (i < length l)%nat -> nth i (upd i v l) d = v.
Proof. revert i; induction l as [|x l IH]; intros [|i] L; cbn [upd length nth] in *; try lia; [reflexivity|]. apply IH. lia. Qed.
Lemma nth_upd_other {A} i j (v d : A) l : i <> j -> nth j (upd i v l) d = nth j l d.
Proof. revert i j; induction l as [|x l IH]; intros [|i] [|j] L; cbn [upd nth]; try reflexivity; try congruence. apply IH. congruence. Qed.
Lemma nth_add {A} j (v d : A) l : (j < length l)%nat -> nth j (l ++ [v]) d = nth j l d.
Proof. intros L. now rewrite app_nth1. Qed.
Lemma nth_last {A} (v d : A) l : nth (length l) (l ++ [v]) d = v.
Proof. rewrite app_nth2 by lia. now rewrite Nat.sub_diag. Qed.

(* ---------- code that leaves the path alone ---------- *)
Definition kp {A} (m : M A) : Prop := forall u, path (fst (snd (m u))) = path u.
Lemma kp_ret {A} (a : A) : kp (ret a). Proof. intros u. reflexivity. Qed.
Lemma kp_raise {A} e : kp (@raise A e). Proof. intros u. reflexivity. Qed.
Lemma kp_fail {A} v e : kp (@fail A v e). Proof. intros u. reflexivity. Qed.
Lemma kp_log v : kp (logm v). Proof. intros u. reflexivity. Qed.
Lemma kp_get : kp get. Proof. intros u. reflexivity. Qed.
Lemma kp_lift {A} (w : W A) : kp (lift w). Proof. intros u. reflexivity. Qed.
Lemma kp_modify f : (forall u, path (f u) = path u) -> kp (modify f). Proof. intros F u. apply F. Qed.
Lemma kp_bind {A B} (m : M A) (f : A -> M B) : kp m -> (forall a, kp (f a)) -> kp (bind m f).
Proof.
  intros H G u. specialize (H u). unfold bind. destruct (m u) as [l [v [a|e]]]; cbn [fst snd] in *; [|exact H].
  specialize (G a v). destruct (f a v) as [l' [w r]]. cbn [fst snd] in *. congruence.
Qed.
Lemma kp_when b m : kp m -> kp (when b m). Proof. intros H. destruct b; [exact H|apply kp_ret]. Qed.
Ltac kps := repeat first
  [ apply kp_ret | apply kp_raise | apply kp_fail | apply kp_log | apply kp_get | apply kp_lift
  | apply kp_modify; intros []; reflexivity | apply kp_when | apply kp_bind; [|intros ?]
  | assumption
  | match goal with |- kp (if ?b then _ else _) => destruct b | |- kp (match ?x with _ => _ end) => destruct x end ].
Lemma kp_check c t : kp (check_unit c t). Proof. unfold check_unit. kps. Qed.
Lemma kp_sra rest : kp (parse_special_relative_or_authority rest). Proof. unfold parse_special_relative_or_authority. kps. Qed.
Lemma kp_poa rest : kp (parse_path_or_authority rest). Proof. unfold parse_path_or_authority. kps. Qed.
Lemma kp_sas rest : kp (parse_special_authority_slashes rest). Proof. unfold parse_special_authority_slashes. kps. Qed.
Lemma kp_ign rest : kp (parse_ignore_slashes rest).
Proof. unfold parse_ignore_slashes. generalize 0%nat. induction rest as [|c t IH]; intros i; cbn [ignore_slashes_loop]; kps. apply IH. Qed.
Lemma kp_auth rest : kp (parse_authority rest).
Proof.
  unfold parse_authority. apply kp_bind; [|intros; apply kp_ret]. assert (X : forall r i b x y, kp (authority_loop r i b x y)); [|apply X].
  clear rest. intros rest. induction rest as [|c t IH]; intros i b x y; cbn [authority_loop].
  - unfold authority_end. kps.
  - destruct (c =? 64).
    + apply kp_bind; [apply kp_log|intros _]. cbv zeta. destruct (if y then _ else _) as [[us pw] se]. kps. apply IH.
    + apply kp_bind; [apply kp_get|intros u]. destruct (_ || _); [unfold authority_end; kps|apply IH].
Qed.
Lemma kp_host_end E so i b : kp (host_end E so i b). Proof. unfold host_end. kps. Qed.
Lemma kp_file_host_end E so i b : kp (file_host_end E so i b). Proof. unfold file_host_end. kps. Qed.
Lemma kp_port_end E so i b : kp (port_end E so i b). Proof. unfold port_end. kps. Qed.
Lemma kp_host E rest so : kp (parse_host E rest so).
Proof.
  unfold parse_host. apply kp_bind; [apply kp_get|intros u]. destruct (_ && _); [apply kp_ret|]. clear u. generalize 0%nat, (@nil N), false.
  induction rest as [|c t IH]; intros i b x; cbn [host_loop]; [apply kp_host_end|].
  apply kp_bind; [apply kp_get|intros u]. destruct (_ && _); [kps|]. destruct (_ || _); [apply kp_host_end|apply IH].
Qed.
Lemma kp_port E rest so : kp (parse_port E rest so).
Proof.
  unfold parse_port. generalize 0%nat, (@nil N). induction rest as [|c t IH]; intros i b; cbn [port_loop]; [apply kp_port_end|].
  destruct (mem c ASCII_DIGITS); [apply IH|]. apply kp_bind; [apply kp_get|intros u]. destruct (_ || _); [apply kp_port_end|apply kp_fail].
Qed.
Lemma kp_file_host E rest so : kp (parse_file_host E rest so).
Proof.
  unfold parse_file_host. generalize 0%nat, (@nil N). induction rest as [|c t IH]; intros i b; cbn [file_host_loop]; [apply kp_file_host_end|].
  destruct (mem c _); [apply kp_file_host_end|apply IH].
Qed.
Lemma kp_query_flush E enc b : kp (query_flush E enc b). Proof. unfold query_flush, query_append. kps. Qed.
Lemma kp_query E rest so enc : kp (parse_query E rest so enc).
Proof.
  unfold parse_query. generalize 0%nat, (@nil N). induction rest as [|c t IH]; intros i b; cbn [query_loop].
  - apply kp_bind; [apply kp_when, kp_query_flush|intros; apply kp_ret].
  - destruct (_ && _).
    + apply kp_bind; [apply kp_query_flush|intros _]. kps.
    + apply kp_bind; [apply kp_check|intros _; apply IH].
Qed.
Lemma kp_fragment rest : kp (parse_fragment rest).
Proof.
  unfold parse_fragment. generalize 0%nat, (@nil N). induction rest as [|c t IH]; intros i b; cbn [fragment_loop].
  - apply kp_bind; [|intros; apply kp_ret]. apply kp_when. unfold fragment_append. kps.
  - apply kp_bind; [apply kp_check|intros _; apply IH].
Qed.

Section Frame.
(** the heap before, the objects and lists that must not change, and the record
    that the parser may change *)
Variables (h0 : heap) (PO PC : nat -> Prop) (me : nat).
Record inv (h : heap) : Prop := {
  i_me : (me < length (objs h))%nat;
  i_not : ~ PO me;
  i_obj : forall j, PO j -> (j < length (objs h))%nat /\ obj_at h j = obj_at h0 j;
  i_cell : forall l, PC l -> (l < length (cells h))%nat /\ nth l (cells h) [] = nth l (cells h0) [];
  i_own : forall l, o_path (obj_at h me) = HRef l -> (l < length (cells h))%nat /\ ~ PC l;
  i_len : length (objs h) = length (objs h0) /\ (length (cells h0) <= length (cells h))%nat }.

Definition sim {A} (hm : HM A) (m : M A) : Prop := forall h, inv h ->
  fst (hm h) = fst (m (read h me)) /\
  snd (snd (hm h)) = snd (snd (m (read h me))) /\
  read (fst (snd (hm h))) me = fst (snd (m (read h me))) /\
  inv (fst (snd (hm h))).

Lemma sim_ret {A} (a : A) : sim (hret a) (ret a).
Proof. intros h I. exact (conj eq_refl (conj eq_refl (conj eq_refl I))). Qed.
Lemma sim_raise {A} e : sim (@hraise A e) (raise e).
Proof. intros h I. exact (conj eq_refl (conj eq_refl (conj eq_refl I))). Qed.
Lemma sim_fail {A} v e : sim (@hfail A v e) (fail v e).
Proof. intros h I. exact (conj eq_refl (conj eq_refl (conj eq_refl I))). Qed.
Lemma sim_log v : sim (hlog v) (logm v).
Proof. intros h I. exact (conj eq_refl (conj eq_refl (conj eq_refl I))). Qed.
Lemma sim_bind {A B} (hm : HM A) (m : M A) (hf : A -> HM B) (f : A -> M B) :
  sim hm m -> (forall a, sim (hf a) (f a)) -> sim (hbind hm hf) (bind m f).
Proof.
  intros H G h I. destruct (H h I) as (H1 & H2 & H3 & H4). unfold hbind, bind.
  destruct (hm h) as [l [h1 r]], (m (read h me)) as [l' [u1 r']]. cbn [fst snd] in *. subst l' r' u1.
  destruct r as [a|e]; cbn [fst snd]; [|auto].
  destruct (G a h1 H4) as (G1 & G2 & G3 & G4). destruct (hf a h1) as [l2 [h2 r2]], (f a (read h1 me)) as [l3 [u3 r3]].
  cbn [fst snd] in *. subst. auto.
Qed.
Lemma sim_when b hm m : sim hm m -> sim (hwhen b hm) (when b m).
Proof. intros H. destruct b; [exact H|apply sim_ret]. Qed.
Lemma sim_get : sim (hget me) get.
Proof. intros h I. exact (conj eq_refl (conj eq_refl (conj eq_refl I))). Qed.
(** reading a protected record *)
Definition prot (b : nat) : Prop := PO b /\ forall l, o_path (obj_at h0 b) = HRef l -> PC l.
Lemma read_prot h b : inv h -> prot b -> read h b = read h0 b.
Proof.
  intros I [P Q]. unfold read. destruct (i_obj h I b P) as [_ ->]. unfold view. f_equal. unfold deref.
  destruct (o_path (obj_at h0 b)) as [s|l] eqn:X; [reflexivity|]. destruct (i_cell h I l (Q l eq_refl)) as [_ ->]. reflexivity.
Qed.
Lemma sim_get_base {A} b (hf : urlrec -> HM A) (m : M A) : prot b -> sim (hf (read h0 b)) m -> sim (hbind (hget b) hf) m.
Proof.
  intros P H h I. unfold hbind, hget. rewrite (read_prot h b I P). destruct (H h I) as (H1 & H2 & H3 & H4).
  destruct (hf (read h0 b) h) as [l [h' r]]. cbn [fst snd app] in *. auto.
Qed.

Lemma put_me h o : inv h -> (forall l, o_path o = HRef l -> (l < length (cells h))%nat /\ ~ PC l) -> inv (put_obj me o h).
Proof.
  intros I Q. destruct I as [I1 I2 I3 I4 I5 I6]. constructor; cbn [put_obj objs cells].
  - now rewrite upd_length.
  - exact I2.
  - intros j P. destruct (I3 j P) as [L X]. rewrite upd_length. split; [auto|]. unfold obj_at in *. cbn [put_obj objs].
    rewrite nth_upd_other; [exact X|]. intros ->. contradiction.
  - exact I4.
  - intros l. unfold obj_at. cbn [put_obj objs]. rewrite nth_upd_same by auto. apply Q.
  - now rewrite upd_length.
Qed.
Lemma read_put h o : inv h -> read (put_obj me o h) me = view h o.
Proof. intros I. unfold read, obj_at. cbn [put_obj objs]. rewrite nth_upd_same by apply I. reflexivity. Qed.
Lemma sim_set f : (forall p u, set_path p (f u) = f (set_path p u)) -> sim (hset me f) (modify f).
Proof.
  intros F h I. unfold hset, modify. cbv zeta. cbn [fst snd]. split; [reflexivity|split; [reflexivity|split]].
  - rewrite read_put by auto. unfold view. cbn [o_path o_fields]. rewrite F. reflexivity.
  - apply put_me; [auto|]. cbn [o_path]. apply I.
Qed.
Lemma sim_fields {A} (m : M A) : (forall u, path (fst (snd (m u))) = path u) -> sim (hfields me m) m.
Proof.
  intros F h I. specialize (F (read h me)). unfold hfields. destruct (m (read h me)) as [l [u r]]. cbn [fst snd] in *.
  split; [reflexivity|split; [reflexivity|split]].
  - rewrite read_put by auto. unfold view. cbn [o_path o_fields]. unfold read, view in F. cbn [path set_path] in F. rewrite <- F. destruct u; reflexivity.
  - apply put_me; [auto|]. cbn [o_path]. apply I.
Qed.
Lemma sim_text s : sim (hset_text me s) (modify (set_path (POpaque s))).
Proof.
  intros h I. unfold hset_text, modify. cbn [fst snd]. split; [reflexivity|split; [reflexivity|split]].
  - rewrite read_put by auto. reflexivity.
  - apply put_me; [auto|]. cbn [o_path]. discriminate.
Qed.
Lemma inv_add h v : inv h -> inv (add_cell v h).
Proof.
  intros [I1 I2 I3 I4 I5 I6]. constructor; cbn [add_cell objs cells]; auto.
  - intros l P. destruct (I4 l P) as [L X]. rewrite app_length. split; [lia|]. now rewrite nth_add.
  - intros l P. destruct (I5 l P) as [L X]. rewrite app_length. split; [lia|auto].
  - rewrite app_length. lia.
Qed.
Lemma new_free h : inv h -> ~ PC (length (cells h)).
Proof. intros I P. destruct (i_cell h I _ P). lia. Qed.
Lemma sim_list v : sim (hset_list me v) (modify (set_path (PList v))).
Proof.
  intros h I. unfold hset_list, modify. cbn [fst snd]. split; [reflexivity|split; [reflexivity|]].
  pose proof (inv_add h v I) as I'. split.
  - rewrite read_put by auto. unfold view, deref. cbn [o_path o_fields add_cell cells]. rewrite nth_last. reflexivity.
  - apply put_me; [auto|]. cbn [o_path]. intros l Q. injection Q as <-. cbn [add_cell cells]. rewrite app_length. split; [cbn [length]; lia|now apply new_free].
Qed.
Lemma sim_copy b : prot b -> sim (hcopy_path me b) (modify (set_path (path (read h0 b)))).
Proof.
  intros P h I. unfold hcopy_path. pose proof P as [P1 P2]. destruct (i_obj h I b P1) as [_ X]. rewrite X.
  replace (path (read h0 b)) with (deref h0 (o_path (obj_at h0 b))) by reflexivity.
  destruct (o_path (obj_at h0 b)) as [s|l] eqn:Q; [exact (sim_text s h I)|]. cbn [deref].
  destruct (i_cell h I l (P2 l eq_refl)) as [_ Y]. rewrite <- Y. exact (sim_list _ h I).
Qed.
Lemma put_own h l v : inv h -> o_path (obj_at h me) = HRef l -> inv (put_cell l v h).
Proof.
  intros I Q. destruct (i_own h I l Q) as [L NP]. destruct I as [I1 I2 I3 I4 I5 I6]. constructor; cbn [put_cell objs cells]; auto.
  - intros k P. destruct (I4 k P) as [L' X]. rewrite upd_length. split; [auto|]. rewrite nth_upd_other; [auto|]. intros ->. contradiction.
  - intros k P. rewrite upd_length. apply I5. exact P.
  - now rewrite upd_length.
Qed.
Lemma sim_mutate e f : sim (hmutate me e f)
  (u <- get ;; match path u with POpaque _ => raise e | PList segs => modify (set_path (PList (f segs))) end).
Proof.
  intros h I. unfold hmutate, bind, get. destruct (o_path (obj_at h me)) as [s|l] eqn:Q.
  - replace (path (read h me)) with (POpaque s) by (unfold read, view, deref; rewrite Q; reflexivity). exact (conj eq_refl (conj eq_refl (conj eq_refl I))).
  - replace (path (read h me)) with (PList (nth l (cells h) [])) by (unfold read, view, deref; rewrite Q; reflexivity).
    cbn [modify fst snd app]. split; [reflexivity|split; [reflexivity|split; [|now apply put_own]]].
    destruct (i_own h I l Q) as [L _]. unfold read, obj_at. cbn [put_cell objs]. fold (obj_at h me). unfold view, deref. rewrite Q. cbn [put_cell cells].
    rewrite nth_upd_same by auto. reflexivity.
Qed.
Lemma sim_append x : sim (happend me x) (path_append x).
Proof. exact (sim_mutate EAttr (fun l => l ++ [x])). Qed.
Lemma sim_shorten : sim (hshorten me) shorten_path.
Proof.
  intros h I. pose proof (sim_mutate EAssert (shorten_segs (scheme (read h me))) h I) as G.
  unfold hshorten, hbind, hget. unfold shorten_path. unfold bind, get in *.
  destruct (hmutate me EAssert _ h) as [l [h' r]]. cbn [fst snd app] in *. exact G.
Qed.
Lemma sim_extend x : sim (hextend me x) (path_extend x).
Proof.
  intros h I. unfold hextend, path_extend. destruct (o_path (obj_at h me)) as [s|l] eqn:Q.
  - replace (path (read h me)) with (POpaque s) by (unfold read, view, deref; rewrite Q; reflexivity).
    pose proof (sim_text (s ++ x) h I) as G. unfold modify in *. cbv beta.
    replace (path (read h me)) with (POpaque s) by (unfold read, view, deref; rewrite Q; reflexivity). exact G.
  - pose proof (sim_mutate EAttr (fun v => v ++ map (fun c => [c]) x) h I) as G. unfold hmutate, bind, get in G. rewrite Q in G. unfold modify in *. cbv beta.
    replace (path (read h me)) with (PList (nth l (cells h) [])) in * by (unfold read, view, deref; rewrite Q; reflexivity). exact G.
Qed.

Variable base : option nat.
Hypothesis Hb : match base with Some b => prot b | None => True end.
Definition bval : option urlrec := match base with Some b => Some (read h0 b) | None => None end.
Ltac ss := repeat first
  [ apply sim_ret | apply sim_raise | apply sim_fail | apply sim_log | apply sim_get | apply sim_append | apply sim_shorten | apply sim_extend | apply sim_text | apply sim_list
  | apply sim_copy; assumption
  | apply sim_set; intros ? []; reflexivity | apply sim_when | apply sim_get_base; [assumption|] | apply sim_bind; [|intros ?]
  | match goal with |- sim (if ?b then _ else _) _ => destruct b | |- sim (match ?x with _ => _ end) _ => destruct x end ].

Lemma sim_file rest : sim (hparse_file me rest base) (parse_file rest bval).
Proof.
  unfold hparse_file, parse_file, bval. cbv zeta. apply sim_bind; [ss|intros _]. apply sim_bind; [ss|intros _].
  destruct (iscp (cur rest) _); [ss|]. destruct base as [b|]; [|ss]. apply sim_get_base; [assumption|]. ss.
Qed.
Lemma sim_file_slash rest : sim (hparse_file_slash me rest base) (parse_file_slash rest bval).
Proof.
  unfold hparse_file_slash, parse_file_slash, bval. cbv zeta.
  destruct (iscp (cur rest) _); [ss|]. destruct base as [b|]; [|ss]. apply sim_get_base; [assumption|].
  destruct (str_eqb _ _); [|ss]. apply sim_bind; [ss|intros _]. apply sim_get_base; [assumption|]. ss.
Qed.
Lemma sim_no_scheme rest : sim (hparse_no_scheme me rest base) (parse_no_scheme rest bval).
Proof. unfold hparse_no_scheme, parse_no_scheme, bval. cbv zeta. destruct base as [b|]; [|ss]. apply sim_get_base; [assumption|]. ss. Qed.
Lemma sim_check c t : sim (hfields me (check_unit c t)) (check_unit c t).
Proof. apply sim_fields. exact (kp_check c t). Qed.
Lemma sim_opaque rest i : sim (hopaque_path_loop me rest i) (opaque_path_loop rest i).
Proof.
  revert i; induction rest as [|c t IH]; intros i; cbn [hopaque_path_loop opaque_path_loop]; [ss|].
  destruct (c =? 63); [ss|]. destruct (c =? 35); [ss|]. apply sim_bind; [apply sim_check|intros _]. apply sim_bind; [ss|intros _]. apply IH.
Qed.
Lemma sim_flush c b : sim (hpath_flush me c b) (path_flush c b).
Proof. unfold hpath_flush, path_flush. apply sim_bind; [ss|intros u]. cbv zeta. ss. Qed.
Lemma sim_path so rest i b : sim (hpath_loop me so rest i b) (path_loop so rest i b).
Proof.
  revert i b; induction rest as [|c t IH]; intros i b; cbn [hpath_loop path_loop].
  - apply sim_bind; [apply sim_flush|intros _]. ss.
  - apply sim_bind; [ss|intros u]. destruct (_ || _).
    + apply sim_bind; [ss|intros _]. apply sim_bind; [apply sim_flush|intros _]. destruct (c =? 63); [ss|]. destruct (c =? 35); [ss|]. apply IH.
    + apply sim_bind; [apply sim_check|intros _]. apply IH.
Qed.
Lemma sim_path_start rest so : sim (hparse_path_start me rest so) (parse_path_start rest so).
Proof. unfold hparse_path_start, parse_path_start. cbv zeta. apply sim_bind; [ss|intros u]. ss. Qed.
Lemma sim_relative rest : sim (hparse_relative me rest base) (parse_relative rest bval).
Proof.
  unfold hparse_relative, parse_relative, bval. destruct base as [b|]; [|ss]. apply sim_get_base; [assumption|].
  destruct (str_eqb _ _); [ss|]. apply sim_bind; [ss|intros _]. cbv zeta. apply sim_bind; [ss|intros u].
  destruct (isc _ 47); [ss|]. destruct (_ && _); [ss|]. apply sim_get_base; [assumption|]. ss.
Qed.
Lemma sim_relative_slash rest : sim (hparse_relative_slash me rest base) (parse_relative_slash rest bval).
Proof.
  unfold hparse_relative_slash, parse_relative_slash, bval. cbv zeta. apply sim_bind; [ss|intros u].
  destruct (_ && _); [ss|]. destruct (isc _ 47); [ss|]. destruct base as [b|]; [|ss]. apply sim_get_base; [assumption|]. ss.
Qed.
Lemma sim_hret {A B} (a : A) (hf : A -> HM B) m : sim (hf a) m -> sim (hbind (hret a) hf) m.
Proof.
  intros H h I. unfold hbind, hret. destruct (H h I) as (H1 & H2 & H3 & H4).
  destruct (hf a h) as [l [h' r]]. cbn [fst snd app] in *. auto.
Qed.
Lemma sim_assoc_get {A B} b (hf : urlrec -> A) (k : A -> HM B) m : prot b -> sim (k (hf (read h0 b))) m ->
  sim (hbind (hbind (hget b) (fun x => hret (hf x))) k) m.
Proof.
  intros P H h I. unfold hbind, hret, hget. rewrite (read_prot h b I P). destruct (H h I) as (H1 & H2 & H3 & H4).
  destruct (k (hf (read h0 b)) h) as [l [h' r]]. cbn [fst snd app] in *. auto.
Qed.
Lemma sim_colon so t i b : sim (hscheme_colon me base so t i b) (scheme_colon bval so t i b).
Proof.
  unfold hscheme_colon, scheme_colon, bval. cbv zeta. apply sim_bind; [ss|intros u]. destruct (_ && _); [ss|].
  apply sim_bind; [ss|intros _]. destruct (overridden so); [ss|]. destruct (str_eqb _ _); [ss|].
  destruct base as [bi|]; [apply sim_assoc_get; [assumption|]; ss|apply sim_hret; ss].
Qed.
Lemma sim_scheme rest so : sim (hparse_scheme me rest base so) (parse_scheme rest bval so).
Proof.
  unfold hparse_scheme, parse_scheme. destruct rest as [|c t]; [ss|]. destruct (mem c ASCII_ALPHA); [|ss].
  generalize 1%nat, [c]. induction t as [|d t IH]; intros i b; cbn [hscheme_loop scheme_loop]; [ss|].
  destruct (_ || _); [apply IH|]. destruct (d =? 58); [apply sim_colon|ss].
Qed.
Lemma sim_step E enc so st rest : sim (hstep E me base enc so st rest) (step E bval enc so st rest).
Proof.
  destruct st; cbn [hstep step];
    [ apply sim_ret | apply sim_fields, kp_auth | apply sim_fields, kp_file_host | apply sim_file_slash | apply sim_file
    | apply sim_fields, kp_fragment | apply sim_fields, kp_host | apply sim_fields, kp_host | apply sim_no_scheme | apply sim_opaque
    | apply sim_fields, kp_poa | apply sim_path_start | apply sim_path | apply sim_fields, kp_port | apply sim_fields, kp_query
    | apply sim_relative_slash | apply sim_relative | apply sim_scheme | apply sim_raise | apply sim_fields, kp_ign
    | apply sim_fields, kp_sas | apply sim_fields, kp_sra ].
Qed.
Lemma sim_fsm fuel E enc so st rest : sim (hrun_fsm fuel E me base enc so st rest) (run_fsm fuel E bval enc so st rest).
Proof.
  revert st rest; induction fuel as [|f IH]; intros st rest.
  - destruct st; cbn [hrun_fsm run_fsm]; ss.
  - assert (X : forall s, sim (r <-- hstep E me base enc so s rest ;; hrun_fsm f E me base enc so (fst r) (skipn (snd r) rest))
                              (r <- step E bval enc so s rest ;; run_fsm f E bval enc so (fst r) (skipn (snd r) rest))).
    { intros s. apply sim_bind; [apply sim_step|intros r; apply IH]. }
    destruct st; cbn [hrun_fsm run_fsm]; try (apply X). apply sim_ret.
Qed.
Lemma sim_into E s enc so : sim (hparse_into E me s base enc so) (parse_into E s bval enc so).
Proof. unfold hparse_into, parse_into. apply sim_bind; [ss|intros _]. apply sim_fsm. Qed.
End Frame.

(* ---------- heaps in which no two records share a list ---------- *)
Definition own_ok (h : heap) : Prop :=
  (forall i l, (i < length (objs h))%nat -> o_path (obj_at h i) = HRef l -> (l < length (cells h))%nat) /\
  (forall i j l, (i < length (objs h))%nat -> (j < length (objs h))%nat ->
     o_path (obj_at h i) = HRef l -> o_path (obj_at h j) = HRef l -> i = j).
Definition others (h : heap) (me j : nat) : Prop := (j < length (objs h))%nat /\ j <> me.
Definition others_cells (h : heap) (me l : nat) : Prop := exists j, others h me j /\ o_path (obj_at h j) = HRef l.

Lemma inv_start h me : own_ok h -> (me < length (objs h))%nat -> inv h (others h me) (others_cells h me) me h.
Proof.
  intros [V D] L. constructor; auto.
  - intros [_ X]. congruence.
  - intros j [Hj _]. auto.
  - intros l (j & [Hj _] & Q). split; [exact (V j l Hj Q)|reflexivity].
  - intros l Q. split; [exact (V me l L Q)|]. intros (j & [Hj Ne] & Q'). apply Ne. exact (D j me l Hj L Q' Q).
Qed.
Lemma inv_end h me h' : own_ok h -> inv h (others h me) (others_cells h me) me h' ->
  own_ok h' /\ length (objs h') = length (objs h) /\ (length (cells h) <= length (cells h'))%nat /\
  (forall j, (j < length (objs h))%nat -> j <> me -> obj_at h' j = obj_at h j /\ read h' j = read h j).
Proof.
  intros [V D] I. pose proof (i_len _ _ _ _ _ I) as [LO LC].
  assert (X : forall j, (j < length (objs h))%nat -> j <> me -> obj_at h' j = obj_at h j) by (intros j Hj Ne; apply (i_obj _ _ _ _ _ I j (conj Hj Ne))).
  split; [|split; [auto|split; [auto|]]].
  - split.
    + intros i l Hi Q. destruct (Nat.eq_dec i me) as [->|Ne]; [exact (proj1 (i_own _ _ _ _ _ I l Q))|].
      rewrite (X i ltac:(lia) Ne) in Q. specialize (V i l ltac:(lia) Q). lia.
    + intros i j l Hi Hj Qi Qj. rewrite LO in *.
      destruct (Nat.eq_dec i me) as [->|Ni], (Nat.eq_dec j me) as [->|Nj]; [reflexivity| | |].
      * exfalso. apply (proj2 (i_own _ _ _ _ _ I l Qi)). exists j. rewrite (X j Hj Nj) in Qj. split; [split; auto|auto].
      * exfalso. apply (proj2 (i_own _ _ _ _ _ I l Qj)). exists i. rewrite (X i Hi Ni) in Qi. split; [split; auto|auto].
      * rewrite (X i Hi Ni) in Qi. rewrite (X j Hj Nj) in Qj. exact (D i j l Hi Hj Qi Qj).
  - intros j Hj Ne. split; [auto|]. unfold read. rewrite (X j Hj Ne). unfold view, deref.
    destruct (o_path (obj_at h j)) as [s|l] eqn:Q; [reflexivity|]. do 2 f_equal.
    apply (i_cell _ _ _ _ _ I l). exists j. split; [split; auto|auto].
Qed.

(** the new record *)
Definition with_new (h : heap) : heap := mkheap (objs h ++ [mkobj new_url (HRef (length (cells h)))]) (cells h ++ [[]]).
Lemma obj_old h j : (j < length (objs h))%nat -> obj_at (with_new h) j = obj_at h j.
Proof. intros L. unfold obj_at, with_new. cbn [objs]. now apply nth_add. Qed.
Lemma obj_new h : obj_at (with_new h) (length (objs h)) = mkobj new_url (HRef (length (cells h))).
Proof. unfold obj_at, with_new. cbn [objs]. apply nth_last. Qed.
Lemma own_new h : own_ok h -> own_ok (with_new h).
Proof.
  intros [V D]. assert (LO : length (objs (with_new h)) = S (length (objs h))) by (unfold with_new; cbn [objs]; rewrite app_length; cbn [length]; lia).
  assert (LC : length (cells (with_new h)) = S (length (cells h))) by (unfold with_new; cbn [cells]; rewrite app_length; cbn [length]; lia).
  split.
  - intros i l Hi Q. rewrite LO, LC in *. destruct (Nat.eq_dec i (length (objs h))) as [->|Ne].
    + rewrite obj_new in Q. cbn [o_path] in Q. injection Q as <-. lia.
    + rewrite obj_old in Q by lia. specialize (V i l ltac:(lia) Q). lia.
  - intros i j l Hi Hj Qi Qj. rewrite LO in *.
    destruct (Nat.eq_dec i (length (objs h))) as [->|Ni], (Nat.eq_dec j (length (objs h))) as [->|Nj]; [reflexivity| | |].
    + rewrite obj_new in Qi. cbn [o_path] in Qi. injection Qi as <-. rewrite obj_old in Qj by lia. specialize (V j _ ltac:(lia) Qj). lia.
    + rewrite obj_new in Qj. cbn [o_path] in Qj. injection Qj as <-. rewrite obj_old in Qi by lia. specialize (V i _ ltac:(lia) Qi). lia.
    + rewrite obj_old in Qi, Qj by lia. exact (D i j l ltac:(lia) ltac:(lia) Qi Qj).
Qed.
Lemma read_old h j : own_ok h -> (j < length (objs h))%nat -> read (with_new h) j = read h j.
Proof.
  intros [V _] L. unfold read. rewrite obj_old by auto. unfold view, deref. destruct (o_path (obj_at h j)) as [s|l] eqn:Q; [reflexivity|].
  do 2 f_equal. unfold with_new. cbn [cells]. apply nth_add. exact (V j l L Q).
Qed.
Lemma read_new h : read (with_new h) (length (objs h)) = new_url.
Proof. unfold read. rewrite obj_new. unfold view, deref, with_new. cbn [o_path o_fields cells]. rewrite nth_last. reflexivity. Qed.

(** [r] tells what the heap computation did: records that existed are untouched, the
    result is a new record that shares its list with no other *)
Definition new_only (h h' : heap) : Prop :=
  own_ok h' /\ (length (objs h) <= length (objs h'))%nat /\
  forall j, (j < length (objs h))%nat -> obj_at h' j = obj_at h j /\ read h' j = read h j.
Lemma new_only_refl h : own_ok h -> new_only h h.
Proof. intros O. split; [auto|split; [lia|auto]]. Qed.
Lemma new_only_trans h1 h2 h3 : new_only h1 h2 -> new_only h2 h3 -> new_only h1 h3.
Proof.
  intros (A1 & A2 & A3) (B1 & B2 & B3). split; [auto|split; [lia|]]. intros j Hj. destruct (A3 j Hj) as [X1 X2], (B3 j ltac:(lia)) as [Y1 Y2]. split; congruence.
Qed.
Definition base_in (h : heap) (base : option nat) : Prop := match base with Some b => (b < length (objs h))%nat | None => True end.
Definition val (h : heap) (r : res nat) : res urlrec := match r with Ok i => Ok (read h i) | Err e => Err e end.
Lemma hparse_new_eq E s base enc h : hparse_new E s base enc h =
  match (hwhen (needs_strip s) (hlog VInvalidURLUnit) --;; hparse_into E (length (objs h)) (strip_c0 s) base enc None) (with_new h) with
  | (l, (h', Ok _)) => (l, (h', Ok (length (objs h)))) | (l, (h', Err e)) => (l, (h', Err e)) end.
Proof.
  unfold hparse_new. unfold hbind at 1. unfold hnew. fold (with_new h). unfold hbind.
  destruct (hwhen _ _ (with_new h)) as [l [y [a|e]]]; [|reflexivity].
  destruct (hparse_into E _ (strip_c0 s) base enc None y) as [l2 [z [b|e]]]; [|reflexivity]. cbn [hret]. now rewrite app_nil_r.
Qed.
Lemma new_frame E s base enc h : own_ok h -> base_in h base ->
  let h' := fst (snd (hparse_new E s base enc h)) in let r := snd (snd (hparse_new E s base enc h)) in
  new_only h h' /\ (forall i, r = Ok i -> (length (objs h) <= i < length (objs h'))%nat) /\
  parse_new E s (option_map (read h) base) enc = (fst (hparse_new E s base enc h), val h' r).
Proof.
  intros O B. cbv zeta. rewrite hparse_new_eq. unfold parse_new.
  set (me := length (objs h)). set (h1 := with_new h). pose proof (own_new h O) as O1. fold h1 in O1.
  assert (Lm : (me < length (objs h1))%nat) by (unfold h1, with_new; cbn [objs]; rewrite app_length; cbn [length]; unfold me; lia).
  pose proof (inv_start h1 me O1 Lm) as I.
  assert (P : match base with Some b => prot h1 (others h1 me) (others_cells h1 me) b | None => True end).
  { destruct base as [b|]; [|exact Logic.I]. cbn [base_in] in B. assert (OB : others h1 me b) by (split; unfold me; lia).
    split; [exact OB|]. intros l Q. exists b. split; [exact OB|exact Q]. }
  assert (BV : bval h1 base = option_map (read h) base).
  { destruct base as [b|]; [|reflexivity]. cbn [bval option_map base_in] in *. unfold h1. now rewrite read_old. }
  assert (S : sim h1 (others h1 me) (others_cells h1 me) me
      (hwhen (needs_strip s) (hlog VInvalidURLUnit) --;; hparse_into E me (strip_c0 s) base enc None)
      (when (needs_strip s) (logm VInvalidURLUnit) ;; parse_into E (strip_c0 s) (bval h1 base) enc None)).
  { apply sim_bind; [apply sim_when, sim_log|intros _]. now apply sim_into. }
  specialize (S h1 I). rewrite BV in S. assert (RN : read h1 me = new_url) by apply read_new. rewrite RN in S.
  destruct ((hwhen (needs_strip s) (hlog VInvalidURLUnit) --;; hparse_into E me (strip_c0 s) base enc None) h1) as [l [h2 r]].
  destruct ((when (needs_strip s) (logm VInvalidURLUnit) ;; parse_into E (strip_c0 s) (option_map (read h) base) enc None) new_url) as [l' [u r']].
  cbn [fst snd] in S. destruct S as (S1 & S2 & S3 & S4). subst l' r' u.
  destruct (inv_end h1 me h2 O1 S4) as (E1 & E2 & E3 & E4).
  assert (NO : new_only h h2).
  { split; [auto|]. split; [unfold h1, with_new in E2; cbn [objs] in E2; rewrite app_length in E2; lia|].
    intros j Hj. destruct (E4 j) as [X Y]; [unfold h1, with_new; cbn [objs]; rewrite app_length; lia|unfold me; lia|].
    rewrite X, Y. unfold h1. split; [now apply obj_old|now apply read_old]. }
  destruct r as [[]|e]; cbn [fst snd val].
  - split; [exact NO|]. split; [intros i Hi; injection Hi as <-; unfold me; lia|reflexivity].
  - split; [exact NO|]. split; [intros i Hi; discriminate|reflexivity].
Qed.

Definition arg_in (h : heap) (a : hbase_arg) : Prop := match a with HBRec b => (b < length (objs h))%nat | _ => True end.
Definition arg_val (h : heap) (a : hbase_arg) : base_arg :=
  match a with HBNone => BNone | HBStr s => BStr s | HBRec b => BRec (read h b) end.
Lemma url_frame E s a enc h : own_ok h -> arg_in h a ->
  new_only h (fst (snd (hparse_url E s a enc h))) /\
  (forall i, snd (snd (hparse_url E s a enc h)) = Ok i -> (length (objs h) <= i < length (objs (fst (snd (hparse_url E s a enc h)))))%nat) /\
  parse_url E s (arg_val h a) enc = (fst (hparse_url E s a enc h), val (fst (snd (hparse_url E s a enc h))) (snd (snd (hparse_url E s a enc h)))).
Proof.
  intros O B. unfold hparse_url, parse_url. destruct a as [|t|b]; cbn [arg_val arg_in] in *.
  - destruct (new_frame E s None enc h O I) as (N1 & N2 & N3). unfold hbind, hret, wbind, wret in *. cbn [option_map] in N3. rewrite N3.
    destruct (hparse_new E s None enc h) as [l [h' r]]. cbn [fst snd] in *. split; [exact N1|]. split; [exact N2|]. reflexivity.
  - destruct (new_frame E t None enc h O I) as (N1 & N2 & N3). unfold hbind, hret, wbind, wret in *. cbn [option_map] in N3. rewrite N3.
    destruct (hparse_new E t None enc h) as [l [h1 [i|e]]]; cbn [fst snd val] in *; [|split; [exact N1|split; [exact N2|reflexivity]]].
    assert (B1 : base_in h1 (Some i)) by (cbn [base_in]; destruct (N2 i eq_refl); auto).
    destruct (new_frame E s (Some i) enc h1 (proj1 N1) B1) as (M1 & M2 & M3). cbn [option_map] in M3. rewrite M3.
    destruct (hparse_new E s (Some i) enc h1) as [l2 [h2 r2]]. cbn [fst snd val] in *. rewrite ?app_nil_r.
    split; [exact (new_only_trans _ _ _ N1 M1)|]. split; [|reflexivity].
    intros j Hj. specialize (M2 j Hj). destruct N1 as (_ & N1 & _). lia.
  - destruct (new_frame E s (Some b) enc h O B) as (N1 & N2 & N3). unfold hbind, hret, wbind, wret in *. cbn [option_map] in N3. rewrite N3.
    destruct (hparse_new E s (Some b) enc h) as [l [h' r]]. cbn [fst snd] in *. split; [exact N1|]. split; [exact N2|]. reflexivity.
Qed.
Definition target_only (h h' : heap) (i : nat) : Prop :=
  own_ok h' /\ length (objs h') = length (objs h) /\
  (forall j, (j < length (objs h))%nat -> j <> i -> obj_at h' j = obj_at h j /\ read h' j = read h j).
Lemma sim_frame {A} h i (hm : HM A) m : own_ok h -> (i < length (objs h))%nat ->
  sim h (others h i) (others_cells h i) i hm m ->
  target_only h (fst (snd (hm h))) i /\ fst (hm h) = fst (m (read h i)) /\ snd (snd (hm h)) = snd (snd (m (read h i))) /\
  read (fst (snd (hm h))) i = fst (snd (m (read h i))).
Proof.
  intros O L S. destruct (S h (inv_start h i O L)) as (S1 & S2 & S3 & S4).
  destruct (inv_end h i _ O S4) as (E1 & E2 & _ & E4). split; [exact (conj E1 (conj E2 E4))|auto].
Qed.
Lemma into_frame E i s enc so h : own_ok h -> (i < length (objs h))%nat ->
  target_only h (fst (snd (hparse_into E i s None enc so h))) i /\
  fst (hparse_into E i s None enc so h) = fst (parse_into E s None enc so (read h i)) /\
  snd (snd (hparse_into E i s None enc so h)) = snd (snd (parse_into E s None enc so (read h i))) /\
  read (fst (snd (hparse_into E i s None enc so h))) i = fst (snd (parse_into E s None enc so (read h i))).
Proof.
  intros O L. apply (sim_frame h i _ _ O L). exact (sim_into h _ _ i None I E s enc so).
Qed.
Lemma field_frame i f h : own_ok h -> (i < length (objs h))%nat -> target_only h (fst (snd (hset i f h))) i.
Proof.
  intros O L. pose proof (put_me h (others h i) (others_cells h i) i h (mkobj (f (o_fields (obj_at h i))) (o_path (obj_at h i))) (inv_start h i O L)) as P.
  cbn [o_path] in P. specialize (P (i_own _ _ _ _ _ (inv_start h i O L))). destruct (inv_end h i _ O P) as (E1 & E2 & _ & E4). exact (conj E1 (conj E2 E4)).
Qed.
Lemma exec_target E o i h : own_ok h -> op_in h o -> target o = Some i -> target_only h (hexec E o h) i.
Proof.
  intros O B T. destruct o as [s a enc|k s enc so|k f|k s|k]; cbn [target op_in hexec] in *; [discriminate| | | |]; injection T as ->.
  - apply into_frame; auto.
  - apply field_frame; auto.
  - exact (proj1 (sim_frame h i _ _ O B (sim_text h _ _ i s))).
  - exact (proj1 (sim_frame h i _ _ O B (sim_list h _ _ i []))).
Qed.
Lemma exec_parse E o h : own_ok h -> op_in h o -> target o = None -> new_only h (hexec E o h).
Proof.
  intros O B T. destruct o as [s a enc|k s enc so|k f|k s|k]; cbn [target op_in hexec] in *; try discriminate.
  apply (url_frame E s a enc h O). destruct a; exact B.
Qed.
Lemma reached_own E h : heap_reached E h -> own_ok h.
Proof.
  intros R. induction R as [|h o R IH B].
  - split; [intros i l L|intros i j l L]; cbn [objs length] in L; lia.
  - destruct (target o) as [i|] eqn:T; [apply (exec_target E o i h IH B T)|apply (exec_parse E o h IH B T)].
Qed.
Lemma parse_leaves_base E h s a enc : heap_reached E h -> arg_in h a ->
  let h' := fst (snd (hparse_url E s a enc h)) in let r := snd (snd (hparse_url E s a enc h)) in
  (forall j, (j < length (objs h))%nat -> obj_at h' j = obj_at h j /\ read h' j = read h j) /\
  (forall i, r = Ok i -> ~ (i < length (objs h))%nat /\
     forall j l, (j < length (objs h'))%nat -> o_path (obj_at h' i) = HRef l -> o_path (obj_at h' j) = HRef l -> j = i) /\
  parse_url E s (arg_val h a) enc = (fst (hparse_url E s a enc h), val h' r).
Proof.
  intros R B. pose proof (reached_own E h R) as O. cbv zeta. destruct (url_frame E s a enc h O B) as ((N1 & N2 & N3) & M & Q).
  split; [exact N3|]. split; [|exact Q]. intros i Hi. specialize (M i Hi). split; [lia|].
  intros j l Hj Qi Qj. exact (proj2 N1 j i l Hj (proj2 M) Qj Qi).
Qed.
Lemma no_sharing E h : heap_reached E h ->
  (forall i j l, (i < length (objs h))%nat -> (j < length (objs h))%nat ->
     o_path (obj_at h i) = HRef l -> o_path (obj_at h j) = HRef l -> i = j) /\
  (forall o j, op_in h o -> (j < length (objs h))%nat -> target o <> Some j -> read (hexec E o h) j = read h j) /\
  (forall i s enc so, (i < length (objs h))%nat ->
     parse_into E s None enc so (read h i) =
     (fst (hparse_into E i s None enc so h), (read (fst (snd (hparse_into E i s None enc so h))) i, snd (snd (hparse_into E i s None enc so h))))).
Proof.
  intros R. pose proof (reached_own E h R) as O. split; [exact (proj2 O)|]. split.
  - intros o j B L T. destruct (target o) as [i|] eqn:X.
    + apply (exec_target E o i h O B X); congruence.
    + apply (exec_parse E o h O B X); auto.
  - intros i s enc so L. destruct (into_frame E i s enc so h O L) as (_ & F1 & F2 & F3).
    destruct (parse_into E s None enc so (read h i)) as [l [u r]]. cbn [fst snd] in *. now subst.
Qed.
