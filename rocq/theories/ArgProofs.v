(** Lemmas for C129 and C130: URLSearchParams with arguments of any type. *)
From Coq Require Import Ascii String.
From Coq Require Import NArith ZArith Bool Arith Lia ZifyBool ZifyN ZifyNat List.
From Verif Require Import PyStr PyInt Codec Env HostModel UrlRecord Parser SearchParams UrlApi Repr Args.
From Verif Require Import Lemmas CodecProofs QueryProofs QuoteProofs ParamProofs SpecLimit SpecRepr ReprProofs.
From Verif Require Import SpecText SpecParams SpecArgs.
Import ListNotations.
Open Scope N_scope.

Lemma holds_len x m : holds x m -> arg_len x = Some (length m) /\ arg_iter x = m.
Proof. intros []; cbn [arg_len arg_iter]; now rewrite ?map_length. Qed.
Lemma holds_fun x m m' : holds x m -> holds x m' -> m = m'.
Proof. intros A B. apply holds_len in A as [_ <-], B as [_ <-]. reflexivity. Qed.
Lemma unsized_len x : ~ sized x -> arg_len x = None.
Proof.
  intros N. destruct x as [|s|? ?|? ?|?|?|?|? ? ? [l|]]; try reflexivity; exfalso; apply N; eexists; constructor.
Qed.
Lemma len_sized x n : arg_len x = Some n -> exists m, holds x m /\ length m = n.
Proof.
  destruct x as [|s|? ?|? ?|?|?|?|? ? ? [l|]]; cbn [arg_len]; try discriminate; intros [= <-]; eexists;
    (split; [constructor|]); rewrite ?map_length; reflexivity.
Qed.
Lemma none_unsized x : arg_len x = None -> ~ sized x.
Proof. intros L [m H]. apply holds_len in H as [H _]. congruence. Qed.
Lemma any_skip p r : Forall pair_like p -> any_len (p ++ r) = any_len r.
Proof.
  intros F. induction F as [|x p (a & b & H) F IH]; [reflexivity|]. cbn [app any_len].
  apply holds_len in H as [-> _]. cbn [length Nat.eqb negb]. exact IH.
Qed.
Lemma any_pairs p : Forall pair_like p -> any_len p = inr false.
Proof. intros F. rewrite <- (app_nil_r p), any_skip by exact F. reflexivity. Qed.

(** the ways in which the loop over the lengths ends *)
Lemma any_cases l :
  Forall pair_like l \/
  (exists p x r m, l = p ++ x :: r /\ Forall pair_like p /\ holds x m /\ length m <> 2%nat) \/
  (exists p x r, l = p ++ x :: r /\ Forall pair_like p /\ ~ sized x).
Proof.
  induction l as [|y l IH]; [left; constructor|]. destruct (arg_len y) as [n|] eqn:L.
  - apply len_sized in L as (m & H & L). destruct (Nat.eq_dec (length m) 2) as [Q|Q].
    + assert (P : pair_like y) by (destruct m as [|a [|b [|c m]]]; try discriminate; exists a, b; exact H).
      destruct IH as [F|[(p & x & r & k & -> & F & G & J)|(p & x & r & -> & F & G)]].
      * left. now constructor.
      * right; left. exists (y :: p), x, r, k. repeat split; auto.
      * right; right. exists (y :: p), x, r. repeat split; auto.
    + right; left. exists [], y, l, m. repeat split; auto.
  - right; right. exists [], y, l. repeat split; auto. now apply none_unsized.
Qed.

Section S.
Context (E : env) (pr : N -> bool).
Notation txt := (arg_str E pr).

Lemma to_usv_spec s : is_pystr s -> to_usv s = scalar_value_string s.
Proof. exact (utf8_round_trip s). Qed.

Lemma fill_ok l ps : Forall2 (fun x p => exists n v, holds x [n; v] /\ texts E pr n v p) l ps ->
  (forall x n v s, In x l -> holds x [n; v] -> txt n = Some s \/ txt v = Some s -> is_pystr s) ->
  forall out, fill_pairs E pr l out = Made (out ++ ps) None.
Proof.
  induction 1 as [|x p l ps (n & v & H & (s & t & A & B & ->)) F IH]; intros G out; cbn [fill_pairs].
  - now rewrite app_nil_r.
  - pose proof (proj2 (holds_len _ _ H)) as ->. rewrite A, B, IH.
    + rewrite <- app_assoc. cbn [app].
      rewrite !to_usv_spec; [reflexivity| |]; eapply G; eauto; now left.
    + intros y a b c I. apply G. now right.
Qed.
Lemma fill_limit l : Forall pair_like l -> (exists x n v, In x l /\ holds x [n; v] /\ (txt n = None \/ txt v = None)) ->
  forall out, fill_pairs E pr l out = LimitErr.
Proof.
  induction 1 as [|y l (a & b & H) F IH]; intros (x & n & v & I & G & N) out; [contradiction|]. cbn [fill_pairs].
  pose proof (proj2 (holds_len _ _ H)) as ->. destruct (txt a) eqn:A; [|reflexivity]. destruct (txt b) eqn:B; [|reflexivity].
  destruct I as [->|I].
  - pose proof (holds_fun _ _ _ H G) as [= <- <-]. destruct N; congruence.
  - apply IH. exists x, n, v. auto.
Qed.
Lemma fill_cases l : Forall pair_like l ->
  (exists ps, Forall2 (fun x p => exists n v, holds x [n; v] /\ texts E pr n v p) l ps) \/
  (exists x n v, In x l /\ holds x [n; v] /\ (txt n = None \/ txt v = None)).
Proof.
  induction 1 as [|y l (a & b & H) F IH]; [left; exists []; constructor|].
  destruct (txt a) as [s|] eqn:A; [|right; exists y, a, b; split; [now left|split; [exact H|now left]]].
  destruct (txt b) as [t|] eqn:B; [|right; exists y, a, b; split; [now left|split; [exact H|now right]]].
  destruct IH as [[ps G]|(x & n & v & I & G)].
  - left. eexists ((_, _) :: ps). constructor; [|exact G]. exists a, b. split; [exact H|]. exists s, t. repeat split; auto.
  - right. exists x, n, v. split; [now right|exact G].
Qed.

Lemma dict_ok d conv : Forall2 (fun nv p => texts E pr (fst nv) (snd nv) p) d conv ->
  (forall n v s, In (n, v) d -> txt n = Some s \/ txt v = Some s -> is_pystr s) ->
  forall temp, fill_dict E pr d temp = Made (fold_left (fun d nv => dict_set (fst nv) (snd nv) d) conv temp) None.
Proof.
  induction 1 as [|[n v] p d ps (s & t & A & B & ->) F IH]; intros G temp; cbn [fill_dict]; [reflexivity|].
  cbn [fst snd] in A, B. rewrite A, B, IH.
  - cbn [fold_left fst snd]. rewrite !to_usv_spec; [reflexivity| |]; (apply (G n v); [now left|]); [now right|now left].
  - intros a b c I. apply G. now right.
Qed.
Lemma dict_limit d : (exists n v, In (n, v) d /\ (txt n = None \/ txt v = None)) -> forall temp, fill_dict E pr d temp = LimitErr.
Proof.
  induction d as [|[a b] d IH]; intros (n & v & I & N) temp; [contradiction|]. cbn [fill_dict].
  destruct (txt b) eqn:B; [|reflexivity]. destruct (txt a) eqn:A; [|reflexivity].
  destruct I as [[= -> ->]|I]; [destruct N; congruence|]. apply IH. eauto.
Qed.
Lemma dict_cases d : (exists conv, Forall2 (fun nv p => texts E pr (fst nv) (snd nv) p) d conv) \/
  (exists n v, In (n, v) d /\ (txt n = None \/ txt v = None)).
Proof.
  induction d as [|[a b] d IH]; [left; exists []; constructor|].
  destruct (txt a) as [s|] eqn:A; [|right; exists a, b; split; [now left|now left]].
  destruct (txt b) as [t|] eqn:B; [|right; exists a, b; split; [now left|now right]].
  destruct IH as [[conv G]|(n & v & I & G)].
  - left. eexists ((_, _) :: conv). constructor; [|exact G]. exists s, t. repeat split; auto.
  - right. exists n, v. split; [now right|exact G].
Qed.

(** the names of a dict and its values determine it *)
Lemma firsts_in n l : In n (firsts l) <-> In n l.
Proof.
  induction l as [|m l IH]; [reflexivity|]. cbn [firsts In]. rewrite filter_In, IH.
  destruct (list_eq_dec N.eq_dec m n) as [->|D]; [tauto|].
  destruct (list_eq_dec N.eq_dec n m) as [->|]; [contradiction|]. tauto.
Qed.
Lemma filter_nodup {A} f (l : list A) : NoDup l -> NoDup (filter f l).
Proof.
  induction 1 as [|x l N D IH]; [constructor|]. cbn [filter]. destruct (f x); [|exact IH].
  constructor; [|exact IH]. rewrite filter_In. tauto.
Qed.
Lemma firsts_nodup l : NoDup (firsts l).
Proof.
  induction l as [|n l IH]; [constructor|]. cbn [firsts]. constructor; [|now apply filter_nodup].
  rewrite filter_In. destruct (list_eq_dec N.eq_dec n n); [easy|contradiction].
Qed.
Lemma filter_cut (f : list N -> bool) l : (forall m, In m l -> f m = true) -> filter f l = l.
Proof.
  induction l as [|n l IH]; intros H; [reflexivity|]. cbn [filter]. rewrite (H n) by now left. f_equal. apply IH. intros m I. apply H. now right.
Qed.
Lemma firsts_snoc l n : firsts (l ++ [n]) = firsts l ++ (if in_dec (list_eq_dec N.eq_dec) n l then [] else [n]).
Proof.
  induction l as [|m l IH]; [reflexivity|]. cbn [app firsts]. rewrite IH, filter_app. f_equal. f_equal.
  destruct (in_dec _ n l) as [I|I], (in_dec _ n (m :: l)) as [J|J].
  - reflexivity.
  - exfalso. apply J. now right.
  - destruct J as [->|J]; [|contradiction]. cbn [filter]. destruct (list_eq_dec N.eq_dec n n); [reflexivity|contradiction].
  - cbn [filter]. destruct (list_eq_dec N.eq_dec n m) as [->|]; [exfalso; apply J; now left|reflexivity].
Qed.
Lemma get_det a b : NoDup (map fst a) -> map fst a = map fst b -> (forall n, std_get a n = std_get b n) -> a = b.
Proof.
  revert b. induction a as [|[n v] a IH]; intros [|[m w] b] D F G; try discriminate; [reflexivity|].
  cbn [map fst] in D, F. injection F as <- F. inversion D as [|? ? N D']. subst.
  pose proof (G n) as Q. unfold std_get in Q. cbn [find] in Q. unfold named in Q. cbn [fst] in Q.
  destruct (list_eq_dec N.eq_dec n n); [|contradiction]. cbn [snd] in Q. injection Q as ->. f_equal.
  apply IH; [exact D'|exact F|]. intros k. specialize (G k). unfold std_get in *. cbn [find] in G. unfold named at 1 3 in G.
  cbn [fst] in G. destruct (list_eq_dec N.eq_dec n k) as [<-|]; [|exact G].
  assert (Z : forall l : list tuple, ~ In n (map fst l) -> find (named n) l = None).
  { clear. induction l as [|[x y] l IH]; intros H; [reflexivity|]. cbn [find]. unfold named at 1. cbn [fst map In] in *.
    destruct (list_eq_dec N.eq_dec x n) as [->|]; [exfalso; apply H; now left|]. apply IH. intros I. apply H. now right. }
  rewrite (Z a N), (Z b); [reflexivity|]. now rewrite <- F.
Qed.
Lemma fold_names conv : map fst (fold_left (fun d nv => dict_set (fst nv) (snd nv) d) conv []) = firsts (map fst conv).
Proof.
  induction conv as [|[n v] t IH] using rev_ind; [reflexivity|].
  rewrite fold_left_app, map_app. cbn [fold_left map fst snd]. rewrite dict_set_names, IH, firsts_snoc.
  destruct (in_dec _ n (firsts (map fst t))) as [I|I], (in_dec _ n (map fst t)) as [J|J]; try reflexivity; exfalso.
  - apply J. now apply firsts_in.
  - apply I. now apply firsts_in.
Qed.
Lemma fold_gets conv n : std_get (fold_left (fun d nv => dict_set (fst nv) (snd nv) d) conv []) n = std_get (rev conv) n.
Proof.
  induction conv as [|[k v] t IH] using rev_ind; [reflexivity|].
  rewrite fold_left_app, rev_app_distr. cbn [fold_left rev app fst snd]. rewrite dict_set_get.
  unfold std_get at 2. cbn [find]. unfold named at 1. cbn [fst]. destruct (list_eq_dec N.eq_dec k n); [reflexivity|exact IH].
Qed.

Lemma encode_std s : is_pystr s -> parse_qsl (utf8_encode s) = std_urlencoded_parse (std_utf8_encode (scalar_value_string s)).
Proof. intros P. now rewrite parse_qsl_spec, utf8_encode_spec. Qed.

Lemma new_sound x o : good_init E pr x -> init_spec E pr x o -> sp_new E pr x = o.
Proof.
  intros [P Q] H. destruct H as [|s N|s|b l ps F|b p x r m t F H L T|b p x r F N|d conv ps F A B|u|l|x N|b p x r m F H L T|b l x n v F I H N|d n v I N]; cbn [sp_new].
  - reflexivity.
  - unfold sp_init_str. destruct s as [|c s]; [reflexivity|].
    destruct (starts_with $"?" (c :: s)) eqn:S0.
    { exfalso. apply (N s). f_equal. change $"?" with [63] in S0. cbn [starts_with] in S0. destruct (N.eqb_spec 63 c) as [<-|D]; [reflexivity|discriminate]. }
    rewrite encode_std; [reflexivity|]. apply P. constructor.
  - unfold sp_init_str. cbn [starts_with]. replace (starts_with $"?" (63 :: s)) with true by reflexivity. cbn [skipn].
    rewrite encode_std; [reflexivity|]. specialize (P _ (c_str E pr _)). now inversion P.
  - rewrite any_pairs.
    + rewrite (fill_ok l ps F); [reflexivity|]. intros x n v s I H T. apply P. econstructor; eauto.
    + clear -F. induction F as [|x p l ps (n & v & H & _) F IH]; constructor; [exists n, v; exact H|exact IH].
  - rewrite any_skip by exact F. cbn [any_len]. apply holds_len in H as [-> _].
    destruct (Nat.eqb_spec (length m) 2); [contradiction|]. cbn [negb]. now rewrite T.
  - rewrite any_skip by exact F. cbn [any_len]. now rewrite (unsized_len x N).
  - rewrite (dict_ok d conv F).
    + f_equal. apply get_det.
      * rewrite fold_names. apply firsts_nodup.
      * now rewrite fold_names.
      * intros n. now rewrite fold_gets, B.
    + intros n v s I T. apply P. econstructor; eauto.
  - unfold attach_list. rewrite encode_std; [reflexivity|]. destruct (query u) as [q|] eqn:K; [|constructor]. apply P. now constructor.
  - f_equal. apply str_copy_id. apply Forall_forall. intros y I. pose proof (proj1 (Forall_forall _ _) (Q l eq_refl) y I) as G.
    cbn beta in G. unfold usv_ok. tauto.
  - destruct x; cbn [known] in N; try tauto; reflexivity.
  - rewrite any_skip by exact F. cbn [any_len]. apply holds_len in H as [-> _].
    destruct (Nat.eqb_spec (length m) 2); [contradiction|]. cbn [negb]. now rewrite T.
  - rewrite any_pairs by exact F. apply fill_limit; [exact F|]. exists x, n, v. auto.
  - apply dict_limit. exists n, v. auto.
Qed.
Lemma new_total x : exists o, init_spec E pr x o.
Proof.
  destruct x as [|s|ty t|b l|d|u|l|ty t r i].
  - eexists; constructor.
  - destruct s as [|c s]; [eexists; apply i_str; discriminate|]. destruct (N.eq_dec c 63) as [->|D]; [eexists; apply i_qmark|].
    eexists; apply i_str. intros t [= -> _]. contradiction.
  - eexists. apply i_type. intros K. exact K.
  - destruct (any_cases l) as [F|[(p & x & r & m & -> & F & H & L)|(p & x & r & -> & F & N)]].
    + destruct (fill_cases l F) as [[ps G]|(x & n & v & I & H & N)]; [eexists; eapply i_pairs; exact G|].
      exists LimitErr. eapply i_pair_limit; eauto.
    + destruct (txt (ASeq b (p ++ x :: r))) as [t|] eqn:T; [eexists; eapply i_size; eauto|exists LimitErr; eapply i_size_limit; eauto].
    + eexists. eapply i_unsized; eauto.
  - destruct (dict_cases d) as [[conv F]|(n & v & I & N)]; [|exists LimitErr; eapply i_dict_limit; eauto].
    eexists (Made _ None). eapply i_dict; [exact F|apply fold_names|intros; apply fold_gets].
  - eexists; constructor.
  - eexists; constructor.
  - eexists. apply i_type. intros K. exact K.
Qed.
Lemma new_iff x o : good_init E pr x -> sp_new E pr x = o <-> init_spec E pr x o.
Proof.
  intros G. split; [|now apply new_sound]. intros <-. destruct (new_total x) as [o H]. now rewrite (new_sound x o G H).
Qed.
End S.

(* ---------- operators ---------- *)
Lemma svs_low a b : Forall (fun c => c < 128) a -> scalar_value_string (a ++ b) = a ++ scalar_value_string b.
Proof.
  induction 1 as [|c a H F IH]; [reflexivity|]. cbn [app]. rewrite <- IH. cbn [scalar_value_string].
  assert (L : leading c = false) by (unfold leading; lia). assert (T : trailing c = false) by (unfold trailing; lia).
  rewrite L, T. cbn [andb orb]. destruct (a ++ b); reflexivity.
Qed.
Lemma enc_low a b : Forall (fun c => c < 128) a -> std_utf8_encode (a ++ b) = a ++ std_utf8_encode b.
Proof.
  induction 1 as [|c a H F IH]; [reflexivity|]. unfold std_utf8_encode in *. cbn [app flat_map]. rewrite IH.
  rewrite enc_small by exact H. reflexivity.
Qed.
Lemma split_two sep a b : split sep (a ++ sep :: b) = split sep a ++ split sep b.
Proof.
  induction a as [|c a IH]; cbn [app split].
  - now rewrite N.eqb_refl.
  - rewrite IH. destruct (c =? sep); [reflexivity|]. destruct (split sep a) eqn:Q; [now apply split_not_nil in Q|reflexivity].
Qed.
Lemma items_app a b : qsl_items (a ++ b) = qsl_items a ++ qsl_items b.
Proof.
  induction a as [|x a IH]; [reflexivity|]. cbn [app qsl_items]. rewrite IH. destruct x as [|c x]; [reflexivity|].
  destruct (split1 61 (c :: x)). reflexivity.
Qed.
Lemma qsl_two a b : parse_qsl (a ++ 38 :: b) = parse_qsl a ++ parse_qsl b.
Proof. unfold parse_qsl. rewrite split_two. apply items_app. Qed.

Lemma scalars_usv l : scalars l -> usv_pairs l.
Proof. intros H. eapply Forall_impl; [|exact H]. cbn beta. intros p (A & B & C & D). repeat split; assumption. Qed.

Lemma add_ok l x : sp_add l x = None /\ (forall s, x <> AStr s) \/ exists s, x = AStr s /\ sp_add l x = Some (sp_str l ++ s).
Proof. destruct x; try (left; split; [reflexivity|discriminate]). right. eexists; split; reflexivity. Qed.
Lemma add_more l s r : scalars l -> is_pystr s -> sp_add l (AStr (38 :: s)) = Some r ->
  sp_init_str r = l ++ std_urlencoded_parse (std_utf8_encode (scalar_value_string s)).
Proof.
  intros L S0 [= <-]. apply scalars_usv in L. pose proof (usv_pystr l L) as P.
  pose proof (urlencode_ascii l P) as A. unfold sp_str.
  assert (Q : starts_with $"?" (urlencode l ++ 38 :: s) = false).
  { pose proof (no_qmark l P) as Q. destruct (urlencode l); [reflexivity|]. exact Q. }
  unfold sp_init_str. rewrite Q.
  assert (A' : Forall (fun c => c < 128) (urlencode l ++ [38])).
  { apply Forall_app. split; [eapply Forall_impl; [|exact A]; cbn beta; lia|repeat constructor; lia]. }
  assert (I : is_pystr (urlencode l ++ 38 :: s)).
  { apply Forall_app. split; [eapply Forall_impl; [|exact A]; cbn beta; lia|constructor; [lia|exact S0]]. }
  rewrite utf8_encode_spec by exact I. change (38 :: s) with ([38] ++ s). rewrite app_assoc, svs_low, enc_low by exact A'.
  rewrite <- app_assoc. cbn [app]. rewrite qsl_two. f_equal.
  - now apply parse_qsl_urlencode_id; [|apply usv_id].
  - apply parse_qsl_spec.
Qed.
Lemma pairs_eqb_eq a : forall b, pairs_eqb a b = true <-> a = b.
Proof.
  induction a as [|[n v] a IH]; intros [|[m w] b]; cbn [pairs_eqb]; try (split; [discriminate|discriminate]); [split; reflexivity|].
  rewrite !andb_true_iff, IH, !str_eqb_eq. split; [intros [[-> ->] ->]; reflexivity|intros [= -> -> ->]; auto].
Qed.
Lemma eq_ok l x : sp_eq l x = true <-> x = AParams l.
Proof.
  destruct x; cbn [sp_eq]; try (split; [discriminate|discriminate]). rewrite pairs_eqb_eq. split; [intros ->|intros [= ->]]; reflexivity.
Qed.
Lemma eq_text l l' : scalars l -> scalars l' -> sp_eq l (AParams l') = true <-> sp_str l = sp_str l'.
Proof.
  intros A B. rewrite eq_ok. split; [intros [= ->]; reflexivity|]. intros H. f_equal.
  rewrite <- (str_copy_id l), <- (str_copy_id l') by now apply scalars_usv. now rewrite H.
Qed.
Lemma in_ok l x :
  (forall s, x = AStr s -> is_pystr s -> sp_in l x = inr (std_has l (std_unescape s) None)) /\
  ((forall s, x <> AStr s) -> sp_in l x = inl ($"requires string as left operand, not " ++ arg_type x)).
Proof.
  split.
  - intros s -> P. cbn [sp_in]. f_equal. apply (ops_unescape l s P).
  - destruct x; try reflexivity. intros H. now elim (H s).
Qed.
Lemma item_ok l key p : sp_item l key = Some p <->
  exists a b, l = a ++ p :: b /\ (key = Z.of_nat (length a) \/ key = - Z.of_nat (length b) - 1)%Z.
Proof.
  unfold sp_item. set (i := if (key <? 0)%Z then (key + Z.of_nat (length l))%Z else key). split.
  - intros H. destruct ((i <? 0)%Z || (Z.of_nat (length l) <=? i)%Z) eqn:Q; [discriminate|].
    apply nth_error_split in H as (a & b & H & L). exists a, b. split; [exact H|].
    assert (G : length l = (length a + S (length b))%nat) by (rewrite H, app_length; reflexivity).
    unfold i in *. destruct (key <? 0)%Z eqn:K; lia.
  - intros (a & b & H & K). assert (G : length l = (length a + S (length b))%nat) by (rewrite H, app_length; reflexivity).
    assert (I : i = Z.of_nat (length a)) by (unfold i; destruct (key <? 0)%Z eqn:Q; lia).
    rewrite I. replace ((Z.of_nat (length a) <? 0)%Z || (Z.of_nat (length l) <=? Z.of_nat (length a))%Z) with false by lia.
    rewrite Nat2Z.id, H, nth_error_app2 by lia. now rewrite Nat.sub_diag.
Qed.
Lemma item_none l key : sp_item l key = None <-> (key < - Z.of_nat (length l) \/ Z.of_nat (length l) <= key)%Z.
Proof.
  unfold sp_item. set (i := if (key <? 0)%Z then (key + Z.of_nat (length l))%Z else key).
  destruct ((i <? 0)%Z || (Z.of_nat (length l) <=? i)%Z) eqn:Q.
  - split; [intros _|reflexivity]. unfold i in Q. destruct (key <? 0)%Z eqn:K; lia.
  - split.
    + intros H. apply nth_error_None in H. lia.
    + unfold i in Q. destruct (key <? 0)%Z eqn:K; lia.
Qed.

(* ---------- str() of the objects that have literals ---------- *)
Lemma lit_same E pr : forall o x, lit_arg o x -> exists t, arg_repr E pr x = Some t /\ py_repr (unlimited E) pr o = Ok t.
Proof.
  apply (obj_ind (fun o => forall x, lit_arg o x -> exists t, arg_repr E pr x = Some t /\ py_repr (unlimited E) pr o = Ok t)); [intros x H|intros n x H|intros s x H|intros b l IH x H]; inversion H; subst.
  - eexists. split; reflexivity.
  - eexists. split; reflexivity.
  - eexists. split; reflexivity.
  - match goal with F : Forall2 lit_arg l _ |- _ => rename F into F2 end.
    assert (A : exists ts, all_some (map (arg_repr E pr) m) = Some ts /\ all_ok (map (py_repr (unlimited E) pr) l) = Ok ts).
    { clear H. induction F2 as [|o x l m L F2 IH2]; [exists []; split; reflexivity|]. inversion IH as [|? ? I1 I2]; subst.
      destruct (I1 x L) as (t & T1 & T2). destruct (IH2 I2) as (ts & S1 & S2). exists (t :: ts). cbn [map all_some all_ok]. rewrite T1, T2, S1, S2. split; reflexivity. }
    destruct A as (ts & A & B). cbn [arg_repr py_repr]. rewrite A, B. eexists. split; reflexivity.
Qed.
Theorem lit_text E pr o x : lit_arg o x -> pystr_obj o ->
  exists t, arg_repr E pr x = Some t /\ reads t o /\ ((forall s, o <> PStr s) -> arg_str E pr x = Some t).
Proof.
  intros L P. destruct (lit_same E pr o x L) as (t & A & B). exists t. split; [exact A|]. split.
  - destruct (repr_readable _ _ _ _ P B [] Logic.I) as (n & Q). rewrite app_nil_r in Q. now exists n.
  - intros NS. rewrite <- A. inversion L; subst; try reflexivity. now elim (NS s).
Qed.
