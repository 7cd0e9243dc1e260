(** The code's host parser against the standard's, and the whole parser with the
    standard's host parser in place. *)
From Coq Require Import Ascii String.
From Coq Require Import NArith ZArith Bool Arith Lia ZifyBool ZifyN ZifyNat List.
From Verif Require Import PyStr PyInt Codec Env HostModel UrlRecord Parser FlatParser Lemmas CodecProofs QuoteProofs
  IPv4Proofs IPv6Proofs IPv6Conf SpecIPv6 IPv6Grammar HostProofs ParserProofs ParamProofs QueryProofs StandardProofs SpecPyInt IntGrammar SpecText SpecHost SpecUrl SpecParser.
Import ListNotations.
Open Scope N_scope.

Definition code_to_ascii (E : env) (d : str) : option str := match snd (domain_to_ascii E false d) with Ok x => Some x | Err _ => None end.

(** * Exactly the hosts on which the two parsers differ *)
(** addresses that the code reads and the standard rejects: some part is a number only
    for int(), or a part before the last is above 255 *)
Definition odd_address (E : env) (d : str) : Prop :=
  (exists n, int_address (int_limit E) (uni_decimal E) (uni_space E) (has_validity E) d n) /\
  (Exists (odd_number E) (address_parts d) \/
   exists ns x, std_ipv4_numbers (address_parts d) = Some ns /\ In x (removelast ns) /\ 255 < x).
(** domains: without forbidden code points, and either the last label is a number only
    for int() or the domain ends in a number and is one of those addresses *)
Definition odd_domain (E : env) (d : str) : Prop :=
  existsb std_forbidden_domain d = false /\
  ((std_ends_in_number d = false /\ odd_number E (last (address_parts d) [])) \/ (std_ends_in_number d = true /\ odd_address E d)).
Definition odd_host (E : env) (h : str) (o : bool) : Prop :=
  match h with
  | 91 :: t => last t 0 = 93 /\ odd_v6 (removelast t)
  | _ => o = false /\ exists d, code_to_ascii E (std_utf8_decode (std_percent_decode (std_utf8_encode h))) = Some d /\ odd_domain E d
  end.
Definition regular_host (E : env) (h : str) (o : bool) : Prop := ~ odd_host E h o.

Lemma numbers_not_odd E ps ns : std_ipv4_numbers ps = Some ns -> ~ Exists (odd_number E) ps.
Proof.
  revert ns. induction ps as [|p ps IH]; intros ns H X; [inversion X|]. cbn [std_ipv4_numbers] in H.
  destruct (std_ipv4_number p) as [[k ve]|] eqn:S; [|discriminate]. destruct (std_ipv4_numbers ps) as [l|]; [|discriminate].
  inversion X as [? ? [Q _]|]; subst; [congruence|]. eapply IH; eauto.
Qed.
Lemma address_same E s : limit_ok E ->
  match std_ipv4_parse s with
  | Some n => snd (ipv4_parse E s) = Ok n
  | None => exists e, snd (ipv4_parse E s) = Err e
  end <-> ~ odd_address E s.
Proof.
  intros HE. split.
  - intros H [[n A] O]. apply (address_exact E s n HE) in A. destruct (std_ipv4_parse s) as [m|] eqn:S; [|destruct H as (e & H); congruence].
    rewrite std_ipv4_parse_eq in S. cbv zeta in S. rewrite <- parts_eq in S. destruct (4 <? length (address_parts s))%nat; [discriminate|].
    destruct (std_ipv4_numbers (address_parts s)) as [ns|] eqn:SN; [|discriminate].
    destruct (existsb (fun n => 255 <? n) (removelast ns)) eqn:X; [discriminate|].
    destruct O as [O|(ns' & x & Q & Hx & L)]; [exact (numbers_not_odd E _ _ SN O)|]. injection Q as <-.
    assert (existsb (fun n => 255 <? n) (removelast ns) = true) by (apply existsb_exists; exists x; split; [exact Hx|lia]). congruence.
  - intros O. destruct (std_ipv4_parse s) as [m|] eqn:S; [now apply ipv4_parse_complete|].
    destruct (snd (ipv4_parse E s)) as [n|e] eqn:P; [|eauto]. exfalso. apply O. split; [exists n; now apply address_exact|].
    destruct (std_ipv4_numbers (address_parts s)) as [ns|] eqn:SN.
    + right. destruct (existsb (fun n => 255 <? n) (removelast ns)) eqn:X.
      * apply existsb_exists in X as (x & Hx & L). exists ns, x. repeat split; auto. lia.
      * exfalso. assert (N0 : ~ Exists (odd_number E) (address_parts s)) by exact (numbers_not_odd E _ _ SN).
        pose proof (ipv4_same E s HE) as V. rewrite S in V. destruct V as (e & V); [now apply Forall_Exists_neg| |congruence].
        intros ns' Q (x & Hx & L). rewrite SN in Q. injection Q as <-.
        assert (existsb (fun n => 255 <? n) (removelast ns) = true) by (apply existsb_exists; exists x; split; [exact Hx|lia]). congruence.
    + left. apply ipv4_parse_ok in P as (ns & _ & _ & Hn & _). rewrite <- parts_eq in Hn. apply numbers_exact in Hn.
      clear - SN Hn. induction Hn as [|p n ps ns H F2 IH]; [discriminate|]. cbn [std_ipv4_numbers] in SN.
      destruct (std_ipv4_number p) as [[k ve]|] eqn:S; [|left; split; eauto]. right. apply IH. now destruct (std_ipv4_numbers ps).
Qed.

Lemma not_odd_address E s : limit_ok E -> Forall (fun p => ~ odd_number E p) (address_parts s) ->
  (forall ns, std_ipv4_numbers (address_parts s) = Some ns -> (exists x, In x (removelast ns) /\ 255 < x) -> last ns 0 <= 255) -> ~ odd_address E s.
Proof. intros HE F Q. apply (address_same E s HE). now apply ipv4_same. Qed.
Lemma existsb_ext' {A} (f g : A -> bool) l : (forall x, f x = g x) -> existsb f l = existsb g l.
Proof. intros H. induction l as [|x l IH]; [reflexivity|]. cbn [existsb]. now rewrite H, IH. Qed.
Lemma odd_bare E c t o : c <> 91 -> odd_host E (c :: t) o =
  (o = false /\ exists d, code_to_ascii E (std_utf8_decode (std_percent_decode (std_utf8_encode (c :: t)))) = Some d /\ odd_domain E d).
Proof.
  intros C. apply N.eqb_neq in C. unfold odd_host. destruct c as [|p]; [reflexivity|]. do 7 (destruct p as [p|p|]; try reflexivity; try discriminate C).
Qed.
Lemma host_same E h o : limit_ok E -> scalar_string h -> (h = [] -> o = true) ->
  (code_host E h o = std_host_parse (code_to_ascii E) h o <-> ~ odd_host E h o).
Proof.
  intros HE [Hp Hs] H0. unfold code_host, std_host_parse, host_parse.
  destruct h as [|c t]; [rewrite (H0 eq_refl); split; [intros _ [Q _]; discriminate|reflexivity]|]. destruct (c =? 91) eqn:C.
  - apply N.eqb_eq in C. subst c. cbn [odd_host]. unfold ends_with_char. cbn [rev]. destruct (rev t) as [|x r] eqn:Q.
    { cbn [app]. assert (t = []) by (rewrite <- (rev_involutive t), Q; reflexivity). subst t. split; [intros _ [L _]; discriminate|reflexivity]. }
    assert (T : t = rev r ++ [x]) by (rewrite <- (rev_involutive t), Q; reflexivity).
    rewrite T in *. rewrite removelast_last, last_app in *. cbn [app]. destruct (x =? 93) eqn:X.
    + apply N.eqb_eq in X. subst x. rewrite snd_wbind'. pose proof (ipv6_same E (rev r) HE) as V.
      split.
      * intros H [_ O]. apply V in O; [exact O|]. destruct (std_ipv6_parse (rev r)) as [a|], (snd (ipv6_parse E (rev r))) as [b|e]; try discriminate H; [now injection H as ->|eauto].
      * intros O. assert (O' : ~ odd_v6 (rev r)) by tauto. apply V in O'. destruct (std_ipv6_parse (rev r)) as [a|]; [rewrite O'; reflexivity|]. destruct O' as (e & ->). reflexivity.
    + split; [intros _ [L _]; apply N.eqb_neq in X; auto|]. intros _.
      cbn [snd wfail]. destruct x as [|p]; [reflexivity|]. do 7 (destruct p as [p|p|]; try reflexivity; try discriminate X).
  - assert (G2 : forall X Y : option host, match c with 91 => X | _ => Y end = Y).
    { intros X Y. destruct c as [|p]; [reflexivity|]. do 7 (destruct p as [p|p|]; try reflexivity; try discriminate C). }
    rewrite G2. rewrite odd_bare by (now apply N.eqb_neq). clear G2. destruct o.
    + split; [intros _ [Q _]; discriminate|]. intros _. rewrite snd_wbind'. unfold parse_opaque_host. rewrite (existsb_ext' _ std_forbidden_host) by (intros; apply forbidden_host_eq).
      destruct (existsb std_forbidden_host (c :: t)); [reflexivity|].
      rewrite (encode_conforms _ _ _ _ agree_c0) by exact Hp.
      destruct (is_url_units $"%" [] (c :: t)); reflexivity.
    + cbv zeta. rewrite snd_wbind'. rewrite utf8_decode_spec, string_percent_decode_spec, svs_free by assumption.
      unfold code_to_ascii in *. destruct (snd (domain_to_ascii E false _)) as [d|e]; [|split; [intros _ (_ & d & Q & _); discriminate|reflexivity]].
      assert (G : (exists d0, Some d = Some d0 /\ odd_domain E d0) <-> odd_domain E d).
      { split; [intros (d0 & Q & H); now injection Q as ->|eauto]. }
      assert (G2 : forall P, (P <-> ~ odd_domain E d) -> (P <-> ~ (false = false /\ exists d0, Some d = Some d0 /\ odd_domain E d0))).
      { intros P. tauto. }
      apply G2. clear G G2. unfold odd_domain.
      rewrite (existsb_ext' _ std_forbidden_domain) by (intros; apply forbidden_domain_eq). destruct (existsb std_forbidden_domain d).
      { split; [intros _ [Q _]; discriminate|reflexivity]. }
      pose proof (address_same E d HE) as V.
      destruct (std_ends_in_number d) eqn:SE.
      * assert (EN : is_ends_in_a_number E d = true).
        { apply ends_exact'. now left. }
        rewrite EN, snd_wbind'.
        split.
        -- intros H (_ & [[Q _]|[_ O]]); [discriminate|]. apply V in O; [exact O|].
           destruct (std_ipv4_parse d) as [a|], (snd (ipv4_parse E d)) as [b|e]; try discriminate H; [now injection H as ->|eauto].
        -- intros O. assert (O' : ~ odd_address E d) by tauto. apply V in O'. destruct (std_ipv4_parse d) as [n|]; [rewrite O'; reflexivity|]. destruct O' as (e & ->). reflexivity.
      * destruct (is_ends_in_a_number E d) eqn:EN.
        -- split; [|intros O; exfalso; apply O; split; [reflexivity|left; split; [reflexivity|]]].
           ++ rewrite snd_wbind'. destruct (snd (ipv4_parse E d)); discriminate.
           ++ apply ends_exact' in EN as [Q|Q]; [congruence|exact Q].
        -- split; [|reflexivity]. intros _ (_ & [[_ O]|[Q _]]); [|discriminate]. assert (is_ends_in_a_number E d = true) by (apply ends_exact'; now right). congruence.
Qed.
Lemma host_std E h o : limit_ok E -> scalar_string h -> (h = [] -> o = true) -> regular_host E h o ->
  code_host E h o = std_host_parse (code_to_ascii E) h o.
Proof. intros HE Hs H0 R. now apply host_same. Qed.
(** enough to see that a host is regular *)
Lemma bare_regular E h o : (forall t, h <> 91 :: t) ->
  (forall d, code_to_ascii E (std_utf8_decode (std_percent_decode (std_utf8_encode h))) = Some d ->
    ~ odd_number E (last (address_parts d) []) /\
    (std_ends_in_number d = true -> Forall (fun p => ~ odd_number E p) (address_parts d) /\
      forall ns, std_ipv4_numbers (address_parts d) = Some ns -> Forall (fun x => x <= 255) (removelast ns))) -> regular_host E h o.
Proof.
  intros B R O. assert (O' : exists d, code_to_ascii E (std_utf8_decode (std_percent_decode (std_utf8_encode h))) = Some d /\ odd_domain E d).
  { destruct h as [|c t]; [exact (proj2 O)|]. rewrite odd_bare in O; [exact (proj2 O)|]. intros ->. now apply (B t). }
  destruct O' as (d & A & _ & O'). destruct (R d A) as [R1 R2]. destruct O' as [[_ O']|[Q [_ [X|(ns & x & SN & Hx & L)]]]]; [auto| |].
  - destruct (R2 Q) as [R3 _]. apply Forall_Exists_neg in R3. auto.
  - destruct (R2 Q) as [_ R3]. specialize (R3 ns SN). rewrite Forall_forall in R3. specialize (R3 x Hx). cbv beta in R3. lia.
Qed.

(** * The machine asks its host parser only about pieces of the input *)
Section Ask.
Variable base : option urlrec.
Variable inp : str.
Definition ask_inv (k : cfg) : Prop :=
  match k_state k with
  | S_scheme_start | S_no_scheme | S_file | S_file_slash => k_buf k = []
  | S_host | S_file_host => exists pre, firstn (k_ptr k) inp = pre ++ k_buf k
  | _ => True
  end.
Lemma firstn_step p x : nth_error inp p = Some x -> firstn (Datatypes.S p) inp = firstn p inp ++ [x].
Proof.
  revert p. generalize inp. intros l. induction l as [|y l IH]; intros [|p] H; cbn in *; try discriminate.
  - now injection H as <-.
  - now rewrite (IH p H).
Qed.
Ltac crush :=
  repeat match goal with
    | H : context [match ?x with _ => _ end] |- _ =>
        lazymatch x with context [match _ with _ => _ end] => fail | _ => destruct x eqn:? end; try discriminate H
    end.
Lemma step_inv hp k k' : parser_step hp base inp k = Some k' -> ask_inv k -> ask_inv k'.
Proof.
  destruct k as [st p buf a br pw u]. unfold parser_step. cbn [k_state k_ptr k_buf k_at k_br k_pw k_url]. intros H I.
  destruct st; unfold ask_inv in I; cbn [k_state k_ptr k_buf] in I; crush; injection H as <-; unfold ask_inv; cbn [k_state k_ptr k_buf];
    try exact I; try exact Logic.I; try reflexivity; try (rewrite app_nil_r; eauto; fail); try (eexists; rewrite app_nil_r; reflexivity).
  all: try (subst buf; eexists; rewrite app_nil_r; reflexivity).
  all: destruct I as (pre & I); exists pre; rewrite app_assoc, <- I; now apply firstn_step.
Qed.
Lemma here_shape k : parser_step (fun _ _ => None) base inp k = None -> parser_step (fun _ _ => Some (HStr [])) base inp k <> None ->
  (k_state k = S_host \/ k_state k = S_file_host) /\ (k_buf k = [] -> std_is_special (k_url k) = false).
Proof.
  destruct k as [st p buf a br pw u]. unfold parser_step. cbn [k_state k_ptr k_buf k_at k_br k_pw k_url]. intros H G.
  destruct st; try (exfalso; apply G; exact H).
  - split; [now left|]. intros ->. cbn [length Nat.eqb] in *. destruct (sis (nth_error inp p) 58 && negb br); [now elim G|].
    destruct (_ || _ || _ || _ || _); [|elim G; exact H]. destruct (std_is_special u); [now elim G|reflexivity].
  - split; [now right|]. intros ->. cbn [length Nat.eqb std_any_drive_letter] in *.
    destruct (_ || _ || _ || _ || _); [discriminate H|]. elim G; exact H.
Qed.
Lemma asked_piece hp k h o : std_asks hp base inp k h o -> ask_inv k -> (exists a b, inp = a ++ h ++ b) /\ (h = [] -> o = true).
Proof.
  intros A. induction A as [k L H G|k k' h o L S A IH]; intros I.
  - destruct (here_shape k H G) as [T Z]. split; [|intros B; now rewrite (Z B)].
    assert (I' : exists pre, firstn (k_ptr k) inp = pre ++ k_buf k) by (unfold ask_inv in I; destruct T as [T|T]; rewrite T in I; exact I).
    destruct I' as (pre & I'). exists pre, (skipn (k_ptr k) inp). now rewrite app_assoc, <- I', firstn_skipn.
  - apply IH. eapply step_inv; eassumption.
Qed.
Lemma runs_swap1 hp1 hp2 k r : std_runs hp1 base inp k r -> (forall h o, std_asks hp2 base inp k h o -> hp1 h o = hp2 h o) -> std_runs hp2 base inp k r.
Proof.
  intros R. induction R as [k L|k L S|k k' r L S R IH]; intros A.
  - now apply runs_end.
  - apply runs_fail; [exact L|]. rewrite <- S. symmetry. apply step_ask. intros; apply A; now apply asks_here.
  - assert (S2 : parser_step hp2 base inp k = Some k') by (rewrite <- S; symmetry; apply step_ask; intros; apply A; now apply asks_here).
    eapply runs_step; [exact L|exact S2|]. apply IH. intros h o B. apply A. eapply asks_later; eassumption.
Qed.
Lemma runs_swap2 hp1 hp2 k r : std_runs hp2 base inp k r -> (forall h o, std_asks hp2 base inp k h o -> hp1 h o = hp2 h o) -> std_runs hp1 base inp k r.
Proof.
  intros R. induction R as [k L|k L S|k k' r L S R IH]; intros A.
  - now apply runs_end.
  - apply runs_fail; [exact L|]. rewrite <- S. apply step_ask. intros; apply A; now apply asks_here.
  - assert (S2 : parser_step hp1 base inp k = Some k') by (rewrite <- S; apply step_ask; intros; apply A; now apply asks_here).
    eapply runs_step; [exact L|exact S2|]. apply IH. intros h o B. apply A. eapply asks_later; eassumption.
Qed.
Lemma reads_swap1 hp1 hp2 k r : std_reads hp1 base inp k r -> (forall h o, std_asks hp2 base inp k h o -> hp1 h o = hp2 h o) -> std_reads hp2 base inp k r.
Proof.
  intros R. induction R as [k L Q|k k' r L S R IH]; intros A; [now apply reads_here|].
  assert (S2 : parser_step hp2 base inp k = Some k') by (rewrite <- S; symmetry; apply step_ask; intros; apply A; now apply asks_here).
  eapply reads_later; [exact L|exact S2|]. apply IH. intros h o B. apply A. eapply asks_later; eassumption.
Qed.
End Ask.

Lemma infix_forall P (h s a b : str) : Forall P s -> s = a ++ h ++ b -> Forall P h.
Proof. intros F ->. apply Forall_app in F. destruct F as [_ F]. now apply Forall_app in F. Qed.
Lemma clean_forall P (s : str) : Forall P s -> Forall P (std_input s).
Proof. intros F. rewrite input_eq. apply Forall_forall. intros x H. apply clean_in in H. rewrite Forall_forall in F. auto. Qed.
Lemma asked_host hp base s h o : std_host_of hp base s h o -> scalar_string s -> scalar_string h /\ (h = [] -> o = true).
Proof.
  intros A [H1 H2]. destruct (asked_piece base (std_input s) hp _ h o A eq_refl) as [(x & y & I) Z]. split; [|exact Z].
  split; [apply (infix_forall _ h _ x y (clean_forall _ s H1) I)|apply (infix_forall _ h _ x y (clean_forall _ s H2) I)].
Qed.
Lemma basic_swap E base s r : limit_ok E -> scalar_string s ->
  hosts_satisfy (regular_host E) (std_host_parse (code_to_ascii E)) base s ->
  std_basic_parse (std_host_parse (code_to_ascii E)) base s r <-> std_basic_parse (code_host E) base s r.
Proof.
  intros HE Hs R. assert (A : forall h o, std_host_of (std_host_parse (code_to_ascii E)) base s h o -> code_host E h o = std_host_parse (code_to_ascii E) h o).
  { intros h o H. destruct (asked_host _ _ _ _ _ H Hs) as [P Q]. apply host_std; auto. }
  split; intros H; [eapply runs_swap2|eapply runs_swap1]; eauto.
Qed.
Lemma read_swap E base s b : limit_ok E -> scalar_string s ->
  hosts_satisfy (regular_host E) (std_host_parse (code_to_ascii E)) base s ->
  std_port_read (code_host E) base s b -> std_port_read (std_host_parse (code_to_ascii E)) base s b.
Proof.
  intros HE Hs R H. eapply reads_swap1; [exact H|]. intros h o A. destruct (asked_host _ _ _ _ _ A Hs) as [P Q]. apply host_std; auto.
Qed.
Theorem conforms_whole_ports E s base enc : limit_ok E -> normalize_encoding E enc = $"utf-8" -> scalar_string s ->
  good_base_arg None base -> (forall b, arg_port_read (std_host_parse (code_to_ascii E)) base s b -> short_for (int_limit E) b) ->
  not_file_only (std_host_parse (code_to_ascii E)) base s ->
  arg_hosts_satisfy (regular_host E) (std_host_parse (code_to_ascii E)) base s ->
  forall r, std_url_parse (std_host_parse (code_to_ascii E)) s base r <-> r = outcome (snd (parse_url E s base enc)).
Proof.
  intros HE He Hs HB HL HF HR r. rewrite <- (conforms_url_ports E s base enc); try assumption.
  - destruct base as [|t|b].
    + split; intros H; inversion H; subst; constructor; eapply basic_swap; eauto.
    + destruct HB as [Ht _]. destruct HR as [R1 R2].
      assert (T : forall r, std_basic_parse (std_host_parse (code_to_ascii E)) None t r <-> std_basic_parse (code_host E) None t r) by (intros; now apply basic_swap).
      split; intros H; inversion H; subst; clear H.
      * match goal with A : std_basic_parse _ None t (Some _) |- _ => eapply sup_str; [exact (proj1 (T _) A)|]; apply basic_swap; auto end.
      * match goal with A : std_basic_parse _ None t None |- _ => apply sup_fail; exact (proj1 (T _) A) end.
      * match goal with A : std_basic_parse _ None t (Some _) |- _ => apply (proj2 (T _)) in A; eapply sup_str; [exact A|]; apply basic_swap; auto end.
      * match goal with A : std_basic_parse _ None t None |- _ => apply sup_fail; exact (proj2 (T _) A) end.
    + split; intros H; inversion H; subst; constructor; eapply basic_swap; eauto.
  - intros b A. apply HL. destruct base as [|t|u]; cbn [arg_port_read] in *.
    + eapply read_swap; eauto.
    + destruct HB as [Ht _]. destruct HR as [R1 R2]. destruct A as [A|(u & P & A)]; [left; eapply read_swap; eauto|].
      right. assert (P' : std_basic_parse (std_host_parse (code_to_ascii E)) None t (Some u)) by (apply basic_swap; auto). exists u. split; [exact P'|]. eapply read_swap; eauto.
    + eapply read_swap; eauto.
  - destruct base as [|t|b]; [exact I| |exact HF]. destruct HB as [Ht _]. destruct HR as [R1 R2]. intros b H. apply HF. now apply basic_swap.
Qed.
Theorem conforms_whole E s base enc : limit_ok E -> normalize_encoding E enc = $"utf-8" -> scalar_string s -> short_for (int_limit E) s ->
  good_base_arg (int_limit E) base -> not_file_only (std_host_parse (code_to_ascii E)) base s ->
  arg_hosts_satisfy (regular_host E) (std_host_parse (code_to_ascii E)) base s ->
  forall r, std_url_parse (std_host_parse (code_to_ascii E)) s base r <-> r = outcome (snd (parse_url E s base enc)).
Proof.
  intros HE He Hs HL HB HF HR. apply conforms_whole_ports; auto.
  - destruct base as [|t|u]; [exact I| |exact HB]. exact (conj (proj1 HB) I).
  - intros b. now apply arg_read_short.
Qed.

(** the hosts of a run, computed *)
Fixpoint asks_list (fuel : nat) (hp : str -> bool -> option host) (base : option urlrec) (inp : str) (k : cfg) : option (list (str * bool)) :=
  match fuel with
  | O => None
  | Datatypes.S n =>
      if (length inp <? k_ptr k)%nat then Some []
      else
        let here := match parser_step (fun _ _ => None) base inp k, parser_step (fun _ _ => Some (HStr [])) base inp k with
                    | None, Some _ => [(k_buf k, negb (std_is_special (k_url k)))] | _, _ => [] end in
        match parser_step hp base inp k with
        | None => Some here
        | Some k' => match asks_list n hp base inp k' with Some l => Some (here ++ l) | None => None end
        end
  end.
Lemma asks_list_all fuel hp base inp : forall k l h o, asks_list fuel hp base inp k = Some l -> std_asks hp base inp k h o -> In (h, o) l.
Proof.
  induction fuel as [|n IH]; intros k l h o H A; [discriminate|]. cbn [asks_list] in H.
  inversion A as [k0 L S1 S2 | k0 k' h0 o0 L S1 A']; subst.
  - replace (length inp <? k_ptr k)%nat with false in H by lia. rewrite S1 in H. destruct (parser_step (fun _ _ => Some (HStr [])) base inp k) as [x|]; [|congruence].
    destruct (parser_step hp base inp k) as [k'|]; [|injection H as <-; now left].
    destruct (asks_list n hp base inp k') as [l'|]; [|discriminate]. injection H as <-. now left.
  - replace (length inp <? k_ptr k)%nat with false in H by lia. rewrite S1 in H.
    destruct (asks_list n hp base inp k') as [l'|] eqn:Q; [|discriminate]. injection H as <-. apply in_or_app. right. eapply IH; eassumption.
Qed.
Lemma hosts_computed fuel (P : str -> bool -> Prop) hp base s l :
  asks_list fuel hp base (std_input s) (mkcfg S_scheme_start 0 [] false false false new_url) = Some l ->
  (forall h o, In (h, o) l -> P h o) -> hosts_satisfy P hp base s.
Proof. intros H Q h o A. apply Q. eapply asks_list_all; eassumption. Qed.
