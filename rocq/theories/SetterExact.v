(** C85 as an equivalence: where a setter parses an odd host, the records differ unless
    both the setter of the standard and that of the code fail and change nothing. *)
From Coq Require Import Ascii String.
From Coq Require Import NArith ZArith Bool Arith Lia List.
From Verif Require Import PyStr PyInt Codec Env HostModel UrlRecord Parser SearchParams UrlApi SpecText SpecHost SpecUrl SpecParser SpecApi SpecSetters.
From Verif Require Import Lemmas IPv4Proofs HostProofs StandardProofs HostStandard HostExact SetterStandard SpecWhole SetterWhole SpecApi SpecUrl SpecParser SpecSetters.
Import ListNotations.
Open Scope N_scope.

Section Machine.
Context (hn : bool) (inp : str).
Ltac crush :=
  repeat match goal with
    | H : context [match ?x with _ => _ end] |- _ =>
        lazymatch x with context [match _ with _ => _ end] => fail | _ => destruct x eqn:? end; try discriminate H
    end.
Definition in_host (k : cfg) : Prop := k_state k = S_host \/ k_state k = S_file_host.
Definition ohere (k : cfg) : Prop :=
  exists v, override_step (fun _ _ => None) hn inp k = SFail v /\ override_step (fun _ _ => Some (HStr [])) hn inp k <> SFail v.

(** after the host: the port, which keeps the host *)
Lemma port_step hp k : k_state k = S_port ->
  match override_step hp hn inp k with
  | SGo k' => k_state k' = S_port /\ uhost (k_url k') = uhost (k_url k)
  | SRet v | SFail v => uhost v = uhost (k_url k)
  end.
Proof.
  destruct k as [st p buf a br pw u]. unfold override_step. cbn [k_state k_ptr k_buf k_at k_br k_pw k_url]. intros ->.
  destruct (nth_error inp p) as [c|]; [destruct (std_digit c); [split; reflexivity|]|];
    (destruct (length buf =? 0)%nat; [reflexivity|]); (destruct (65535 <? std_decimal buf); reflexivity).
Qed.
Lemma port_runs hp k v b : override_runs hp hn inp k v b -> k_state k = S_port -> uhost v = uhost (k_url k).
Proof.
  induction 1 as [k L|k v L S|k v L S|k k' v b L S R IH]; intros A; [reflexivity| | |]; pose proof (port_step hp k A) as Q; rewrite S in Q; [exact Q|exact Q|].
  destruct Q as [A' H]. rewrite <- H. now apply IH.
Qed.
Lemma port_asks hp k h o : k_state k = S_port -> ~ override_asks hp hn inp k h o.
Proof.
  intros A Q. induction Q as [k v L H G|k k' h o L S Q IH].
  - apply G. rewrite <- H. apply no_host_step. rewrite <- H || idtac. split; rewrite A; discriminate.
  - apply IH. pose proof (port_step hp k A) as P. rewrite S in P. apply P.
Qed.

(** the step that parses the host *)
Lemma here_step hp k : ohere k ->
  match hp (k_buf k) (negb (std_is_special (k_url k))) with
  | None => override_step hp hn inp k = SFail (k_url k)
  | Some a =>
      exists b, (b = a \/ exists t, a = HStr t /\ b = HStr []) /\
        ((exists k', override_step hp hn inp k = SGo k' /\ k_state k' = S_port /\ uhost (k_url k') = Some b) \/
         (exists v, override_step hp hn inp k = SRet v /\ uhost v = Some b))
  end.
Proof.
  intros (v & H & G). destruct k as [st p buf a br pw u]. unfold override_step in *. cbn [k_state k_ptr k_buf k_at k_br k_pw k_url] in *.
  destruct st; try (exfalso; apply G; exact H).
  - destruct (str_eqb (scheme u) $"file"); [discriminate H|]. destruct (sis (nth_error inp p) 58 && negb br).
    + destruct (length buf =? 0)%nat; [now elim G|]. destruct hn; [discriminate H|]. destruct (hp buf (negb (std_is_special u))) as [x|]; [|reflexivity].
      exists x. split; [now left|]. left. eexists. split; [reflexivity|]. split; reflexivity.
    + destruct (_ || _ || _ || _ || _); [|elim G; exact H]. destruct (std_is_special u && (length buf =? 0)%nat); [now elim G|].
      destruct ((length buf =? 0)%nat && _); [discriminate H|]. destruct (hp buf (negb (std_is_special u))) as [x|]; [|reflexivity].
      exists x. split; [now left|]. right. eexists. split; reflexivity.
  - destruct (_ || _ || _ || _ || _); [|elim G; exact H]. destruct (length buf =? 0)%nat; [discriminate H|].
    destruct (hp buf (negb (std_is_special u))) as [x|]; [|reflexivity]. destruct x as [t|n|l].
    + destruct (str_eqb t $"localhost").
      * exists (HStr []). split; [right; eauto|]. right. eexists. split; reflexivity.
      * exists (HStr t). split; [now left|]. right. eexists. split; reflexivity.
    + exists (HIPv4 n). split; [now left|]. right. eexists. split; reflexivity.
    + exists (HIPv6 l). split; [now left|]. right. eexists. split; reflexivity.
Qed.
(** the other steps in the host states *)
Lemma host_step hp hp' k : ~ ohere k -> override_step hp hn inp k = override_step hp' hn inp k.
Proof. intros N. apply ostep_ask. intros u H G. exfalso. apply N. exists u. now split. Qed.
Lemma ohere_dec k : ohere k \/ ~ ohere k.
Proof.
  unfold ohere. destruct (override_step (fun _ _ => None) hn inp k) as [k'|v|v] eqn:A; [right; intros (w & X & _); discriminate X..|].
  destruct (override_step (fun _ _ => Some (HStr [])) hn inp k) as [k'|w|w] eqn:B; [left; exists v; split; [reflexivity|discriminate]..|].
  right. intros (x & X & Y). apply Y. pose proof (fail_same _ _ _ _ _ A B). congruence.
Qed.
Lemma host_keep hp k k' : in_host k -> ~ ohere k -> override_step hp hn inp k = SGo k' -> in_host k' /\ k_url k' = k_url k.
Proof.
  intros A N H. rewrite (host_step hp (fun _ _ => None) k N) in H. destruct k as [st p buf a br pw u]. unfold in_host, override_step in *.
  cbn [k_state k_ptr k_buf k_at k_br k_pw k_url] in *. destruct A as [->| ->]; crush; try discriminate H; injection H as <-; cbn [k_state k_url]; auto.
Qed.
Lemma run_here hp k v b : ohere k -> (k_ptr k <= length inp)%nat -> override_runs hp hn inp k v b ->
  match hp (k_buf k) (negb (std_is_special (k_url k))) with
  | None => v = k_url k /\ b = false
  | Some a => uhost v = Some a \/ exists t, a = HStr t /\ uhost v = Some (HStr [])
  end.
Proof.
  intros K L R. pose proof (here_step hp k K) as Q. destruct (hp _ _) as [a|].
  - assert (U : exists x, (x = a \/ exists t, a = HStr t /\ x = HStr []) /\ uhost v = Some x).
    { destruct Q as (x & X & [(k' & S & A & U)|(w & S & U)]); exists x; (split; [exact X|]).
      - inversion R as [? L1|? ? L1 S1|? ? L1 S1|? k1 ? ? L1 S1 R1]; subst; try lia; rewrite S in S1; try discriminate S1.
        injection S1 as <-. rewrite (port_runs _ _ _ _ R1 A). exact U.
      - inversion R as [? L1|? ? L1 S1|? ? L1 S1|? k1 ? ? L1 S1 R1]; subst; try lia; rewrite S in S1; try discriminate S1.
        injection S1 as <-. exact U. }
    destruct U as (x & [->|(t & -> & ->)] & U); [now left|right; eauto].
  - inversion R as [? L1|? ? L1 S1|? ? L1 S1|? k1 ? ? L1 S1 R1]; subst; try lia; rewrite Q in S1; try discriminate S1.
    injection S1 as <-. now split.
Qed.
Lemma same_end hp hp' k h o : override_asks hp hn inp k h o -> in_host k -> forall v b,
  override_runs hp hn inp k v b -> override_runs hp' hn inp k v b ->
  (v = k_url k /\ b = false) \/
  exists x y, hp h o = Some x /\ hp' h o = Some y /\ (x = y \/ exists s t, x = HStr s /\ y = HStr t).
Proof.
  induction 1 as [k w L H G|k k' h o L S Q IH]; intros A v b R R'.
  - assert (K : ohere k) by (exists w; now split).
    pose proof (run_here hp k v b K L R) as P. pose proof (run_here hp' k v b K L R') as P'.
    destruct (hp _ _) as [x|]; [|left; exact P]. destruct (hp' _ _) as [y|]; [|left; exact P']. right.
    exists x, y. split; [reflexivity|]. split; [reflexivity|].
    destruct P as [P|(s & -> & P)], P' as [P'|(t & -> & P')]; rewrite P in P'.
    + left. congruence.
    + right. injection P' as ->. eauto.
    + right. injection P' as <-. eauto.
    + right. eauto.
  - destruct (ohere_dec k) as [K|K].
    + exfalso. pose proof (here_step hp k K) as P. destruct (hp (k_buf k) (negb (std_is_special (k_url k)))) as [a|]; [|congruence].
      destruct P as (x & _ & [(k1 & S1 & A1 & _)|(w & S1 & _)]); [|congruence]. replace k1 with k' in A1 by congruence. exact (port_asks hp k' h o A1 Q).
    + destruct (host_keep hp k k' A K S) as [A' U]. rewrite <- U.
      inversion R as [? L1|? ? L1 S1|? ? L1 S1|? k1 ? ? L1 S1 R1]; subst; try lia; try congruence.
      rewrite (host_step hp hp' k K) in S, S1.
      inversion R' as [? L2|? ? L2 S2|? ? L2 S2|? k2 ? ? L2 S2 R2]; subst; try lia; try congruence.
      replace k1 with k' in R1 by congruence. replace k2 with k' in R2 by congruence. now apply IH.
Qed.
End Machine.

Lemma host_piece hn t u hp h o : scalar_string t -> override_asks hp hn (std_strip_tabs t) (mkcfg S_host 0 [] false false false u) h o ->
  scalar_string h /\ (h = [] -> o = true).
Proof.
  intros [H1 H2] H. destruct (oasked hn (std_strip_tabs t) _ _ h o H) as [(x & y & I) Z].
  - intros _. exists []. reflexivity.
  - assert (F : forall P : N -> Prop, Forall P t -> Forall P (std_strip_tabs t)).
    { intros P F. unfold std_strip_tabs. apply Forall_forall. intros c Hc. apply filter_In in Hc as [Hc _]. rewrite Forall_forall in F. auto. }
    split; [|exact Z]. split; [apply (infix_forall _ h _ x y (F _ H1) I)|apply (infix_forall _ h _ x y (F _ H2) I)].
Qed.
Lemma urlrec_dec (u v : urlrec) : {u = v} + {u <> v}.
Proof.
  assert (S : forall a b : list N, {a = b} + {a <> b}) by (apply list_eq_dec, N.eq_dec).
  assert (L : forall a b : list (list N), {a = b} + {a <> b}) by (apply list_eq_dec, S).
  assert (H : forall a b : host, {a = b} + {a <> b}) by (decide equality; apply N.eq_dec).
  assert (P : forall a b : upath, {a = b} + {a <> b}) by decide equality.
  decide equality; decide equality; apply N.eq_dec.
Qed.
Lemma set_swap E s u v b : limit_ok E -> scalar_string (text_of s) ->
  (forall h op, setter_asks (std_host_parse (code_to_ascii (EE E))) s u h op -> regular_host (EE E) h op) ->
  std_set (std_host_parse (code_to_ascii (EE E))) s u v b <-> std_set (code_host (EE E)) s u v b.
Proof.
  intros HE HS HH. set (hp := std_host_parse (code_to_ascii (EE E))) in *. assert (HE' : limit_ok (EE E)) by exact HE.
  assert (B : forall t, s = SetHref t -> forall r, std_basic_parse hp None t r <-> std_basic_parse (code_host (EE E)) None t r).
  { intros t -> r. apply basic_swap; auto. }
  assert (HO : forall hn t, (s = SetHost t /\ hn = false) \/ (s = SetHostname t /\ hn = true) -> ~ std_opaque u ->
    (std_override hp S_host hn t u v b <-> std_override (code_host (EE E)) S_host hn t u v b)).
  { intros hn t Q NO. apply host_override_swap; auto; intros; destruct Q as [[-> ->]|[-> ->]]; auto; apply HH; split; auto. }
  split; intros H; inversion H; subst;
    try (constructor; auto; fail);
    try (constructor; auto; apply (B _ eq_refl); assumption);
    try (constructor; auto; apply HO; auto; fail);
    try (constructor; auto; eapply other_override; [discriminate|discriminate|eassumption]).
Qed.
(** [setters_whole] with the port texts read by the code's own host parser *)
Theorem setters_whole_exact E s o : limit_ok E -> reached E o -> scalar_string (text_of s) ->
  (forall b, setter_reads (code_host (EE E)) s (o_url o) b -> short_for (int_limit E) b) -> ~ port_zero_case s (o_url o) ->
  ((forall v b, std_set (std_host_parse (code_to_ascii (EE E))) s (o_url o) v b <-> v = o_url (fst (set_attr E s o)) /\ b = okb (snd (set_attr E s o))) <->
   (forall h op, setter_asks (std_host_parse (code_to_ascii (EE E))) s (o_url o) h op -> regular_host (EE E) h op) \/
   (std_set (std_host_parse (code_to_ascii (EE E))) s (o_url o) (o_url o) false /\ o_url (fst (set_attr E s o)) = o_url o /\ okb (snd (set_attr E s o)) = false)).
Proof.
  intros HE HR HS HL HP. set (hs := std_host_parse (code_to_ascii (EE E))). set (hc := code_host (EE E)) in *. assert (HE' : limit_ok (EE E)) by exact HE.
  pose proof (setters_conform E s o HR HS HL HP) as C. fold hc in C. split.
  - intros A. set (v := o_url (fst (set_attr E s o))) in *. set (b := okb (snd (set_attr E s o))) in *.
    assert (S1 : std_set hs s (o_url o) v b) by (apply A; now split). assert (S2 : std_set hc s (o_url o) v b) by (apply C; now split). clearbody v b.
    assert (D : (v = o_url o /\ b = false) \/ ~ (v = o_url o /\ b = false)).
    { destruct b; [right; intros [_ X]; discriminate X|]. destruct (urlrec_dec v (o_url o)); [now left|right; now intros [X _]]. }
    destruct D as [[-> ->]|D]; [right; split; [exact S1|now split]|left]. intros h op K O.
    assert (X : (exists x y, hs h op = Some x /\ hc h op = Some y /\ (x = y \/ exists p q, x = HStr p /\ y = HStr q)) /\ scalar_string h /\ (h = [] -> op = true)).
    { destruct s as [t|t|t|t|t|t|t|t|t|t]; cbn [setter_asks text_of] in K, HS; try contradiction.
      - destruct K as [NO K]. inversion S1; subst; [contradiction|]. inversion S2; subst; [contradiction|].
        destruct (same_end false _ hs hc _ h op K (or_introl eq_refl) v b) as [X|X]; [assumption|assumption|now elim D|].
        split; [exact X|]. now apply (host_piece false t (o_url o) hs).
      - destruct K as [NO K]. inversion S1; subst; [contradiction|]. inversion S2; subst; [contradiction|].
        destruct (same_end true _ hs hc _ h op K (or_introl eq_refl) v b) as [X|X]; [assumption|assumption|now elim D|].
        split; [exact X|]. now apply (host_piece true t (o_url o) hs).
      - inversion S1; subst; [|now elim D]. inversion S2; subst.
        split; [eapply (HostExact.same_end None (std_input t) hs hc); eassumption|]. eapply asked_host; eassumption. }
    destruct X as ((x & y & X & Y & [<-|(p & q & -> & ->)]) & P & Z).
    + apply (proj1 (host_same (EE E) h op HE' P Z)); [|exact O]. unfold hs, hc in *. congruence.
    + exact (odd_not_names (EE E) h op p q HE' P Z O X Y).
  - intros [R|(A & B1 & B2)] v b.
    + rewrite <- C. now apply set_swap.
    + rewrite B1, B2. split; [intros H; eapply set_det; eassumption|]. intros [-> ->]. exact A.
Qed.
