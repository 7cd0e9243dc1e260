(** Proofs about [m_parse_url] of MsgParser.v *)
From Coq Require Import Ascii String.
From Coq Require Import NArith ZArith Bool Arith Lia ZifyBool ZifyN ZifyNat List.
From Verif Require Import PyStr PyInt Codec Env HostModel UrlRecord Parser Repr Idna Message MsgHost MsgParser SpecText SpecHost.
From Verif Require Import Lemmas CodecProofs IPv4Proofs FlatParser HostProofs WfProofs RoundTrip UrlProps ReprProofs IntGrammar MsgProofs MsgHostProofs MsgParserProofs.
From Verif Require StandardProofs.
From Verif Require Import SpecPyInt SpecUrl SpecParser SpecReports SpecRepr SpecIdna SpecMessages.
Import ListNotations.
Open Scope N_scope.

Section Call.
Context (X : menv).
Local Notation E := (m_env X).
Local Notation code := (m_icu_code X).
Context (HL : limit_ok E) (HID : idna_ok E).
Lemma wf_href_pystr u : wf (hostval E) u -> is_pystr (href u).
Proof. intros H. rewrite <- fix_v4_href. apply (href_pystr E). now apply wf_fix. Qed.
Lemma parse_url_sim s base enc : enc_ok E (normalize_encoding E enc) -> is_pystr s -> short s -> base_parsed E base -> (forall t, base = BStr t -> short t) ->
  wsim (call_message E code base enc s) (unquoted (has_validity E) (call_unquotable E base s)) (fun _ => False) eq (m_parse_url X s base enc) (parse_url E s base enc).
Proof.
  intros HE HS SH HB SB. unfold m_parse_url, parse_url.
  apply ws_bind with (Q := fun a b => a = b /\ base_of E base enc a /\ forall u, a = Some u -> is_pystr (href u)).
  - destruct base as [|t|b].
    + apply ws_ret. split; [reflexivity|]. split; [reflexivity|discriminate].
    + eapply ws_bind with (Q := fun a b => a = b /\ snd (parse_new E t None enc) = Ok a).
      * pose proof (parse_new_sim X HL HID None t enc) as G. assert (N0 : forall b : urlrec, None = Some b -> is_pystr (href b)) by discriminate. specialize (G N0 HB (SB t eq_refl)).
        apply (wsim_weak _ (call_message E code (BStr t) enc s) _ (unquoted (has_validity E) (call_unquotable E (BStr t) s))) in G.
        -- destruct G as (G1 & G2). split; [exact G1|]. destruct (snd (m_parse_new X t None enc)), (snd (parse_new E t None enc)); cbn [same] in *; try exact G2. split; [exact G2|]. rewrite G2. reflexivity.
        -- intros v b K. eapply mc_base; [reflexivity|exact K].
        -- intros v (K & K'). split; [right; exists t; split; [reflexivity|exact K]|exact K'].
      * intros a b (<- & K). apply ws_ret. split; [reflexivity|]. split; [exists a; split; [exact K|reflexivity]|]. intros u U. injection U as <-. apply wf_href_pystr. eapply (parse_new_wf E t None enc); [exact HE|exact HB|exact I|exact K].
    + apply ws_ret. split; [reflexivity|]. split; [reflexivity|]. intros u U. injection U as <-. apply wf_href_pystr. apply parsed_wf. exact HB.
  - intros a b (<- & K1 & K2). eapply wsim_weak; [| |apply (parse_new_sim X HL HID a s enc K2 HS SH)].
    + intros v b K. eapply mc_url; [exact K1|exact K].
    + intros v (K & K'). split; [left; exact K|exact K'].
Qed.
Lemma parse_url_same s base enc : enc_ok E (normalize_encoding E enc) -> is_pystr s -> short s -> base_parsed E base -> (forall t, base = BStr t -> short t) ->
  untold (snd (m_parse_url X s base enc)) = snd (parse_url E s base enc) /\ map e_type (fst (m_parse_url X s base enc)) = map verr_name (fst (parse_url E s base enc)).
Proof.
  intros H1 H2 H3 H4 H5. destruct (parse_url_sim s base enc H1 H2 H3 H4 H5) as (K1 & K2). split.
  - destruct (snd (m_parse_url X s base enc)), (snd (parse_url E s base enc)); cbn [same untold] in *; try contradiction; [rewrite K2; reflexivity|destruct K2 as (-> & _); reflexivity].
  - clear K2. induction K1 as [|a b l l' T K IH]; [reflexivity|]. cbn [map]. rewrite IH. destruct T as (T & _). rewrite T. reflexivity.
Qed.
Lemma parse_url_blames s base enc e text : enc_ok E (normalize_encoding E enc) -> is_pystr s -> short s -> base_parsed E base -> (forall t, base = BStr t -> short t) ->
  snd (m_parse_url X s base enc) = MErr e text -> blames (call_message E code base enc s) (fst (m_parse_url X s base enc)) e text.
Proof.
  intros H1 H2 H3 H4 H5 H6. destruct (parse_url_sim s base enc H1 H2 H3 H4 H5) as (_ & K2). rewrite H6 in K2. destruct (snd (parse_url E s base enc)); cbn [same] in K2; [contradiction|]. destruct K2 as (_ & [K|(_ & x & bits & _ & K & _)]); [exact K|contradiction K].
Qed.
Lemma parse_url_texts s base enc : enc_ok E (normalize_encoding E enc) -> is_pystr s -> short s -> base_parsed E base -> (forall t, base = BStr t -> short t) -> ~ call_unquotable E base s ->
  Forall (fun en => e_text en <> None) (fst (m_parse_url X s base enc)).
Proof.
  intros H1 H2 H3 H4 H5 H6. destruct (parse_url_sim s base enc H1 H2 H3 H4 H5) as (K & _).
  induction K as [|a b l l' T K IH]; constructor; [|exact IH]. destruct T as (_ & T). destruct (e_text a); [discriminate|]. destruct T as (T & _). contradiction.
Qed.
Lemma clean_message base s v bits : std_input s = s -> input_message E code base s v bits -> url_message E code base s v bits.
Proof.
  intros HS H. assert (L : (length s <= length (std_rstrip (std_lstrip s)))%nat) by (rewrite <- HS at 1; unfold std_input, std_strip_tabs; apply StandardProofs.filter_len).
  pose proof (rstrip_len (std_lstrip s)) as L1. pose proof (lstrip_len s) as L2. destruct H as [c C1 C2|c C1 C2|v bits K]; [exfalso|exfalso|rewrite HS in K; exact K].
  - destruct C2 as [C2|(t & ->)].
    + destruct s as [|c' t]; [discriminate C2|]. injection C2 as ->. cbn [std_lstrip] in *. pose proof (lstrip_len t) as L3. pose proof (rstrip_len (std_lstrip t)) as L4.
      replace (std_c0_space c) with true in * by (unfold std_c0_space; lia). cbn [length] in *. lia.
    + assert (T : std_input (t ++ [c]) = clean (t ++ [c])) by apply StandardProofs.input_eq. rewrite HS in T. pose proof (clean_tidy (t ++ [c])) as T'. rewrite <- T in T'. specialize (T' t c eq_refl). lia.
  - assert (L' : (length (std_rstrip (std_lstrip s)) <= length (std_input s))%nat) by (rewrite HS; lia). unfold std_input, std_strip_tabs in L'. revert L' C1. generalize (std_rstrip (std_lstrip s)). clear - C2. intros l. induction l as [|x l IH]; [contradiction|]. cbn [filter length]. intros L [->|C1].
    + rewrite C2 in L. cbn [negb] in L. pose proof (StandardProofs.filter_len (fun c => negb (std_tab_newline c)) l). lia.
    + destruct (std_tab_newline x); cbn [negb length] in L; [pose proof (StandardProofs.filter_len (fun c => negb (std_tab_newline c)) l); lia|apply IH; [lia|exact C1]].
Qed.
Lemma parse_url_clean s b enc : enc_ok E (normalize_encoding E enc) -> is_pystr s -> short s -> (forall u, b = Some u -> parsed E u) -> std_input s = s ->
  Forall2 (tells (url_message E code b s) (unquoted (has_validity E) (unquotable E s))) (fst (m_parse_url X s (match b with Some u => BRec u | None => BNone end) enc)) (fst (parse_url E s (match b with Some u => BRec u | None => BNone end) enc)).
Proof.
  intros H1 H2 H3 H4 H5. assert (HB : base_parsed E (match b with Some u => BRec u | None => BNone end)) by (destruct b as [u|]; [exact (H4 u eq_refl)|exact I]).
  pose proof (parse_url_sim s _ enc H1 H2 H3 HB) as G. assert (K0 : forall t, match b with Some u => BRec u | None => BNone end = BStr t -> short t) by (destruct b; discriminate). specialize (G K0). destruct G as (G & _).
  eapply F2_impl; [|exact G]. intros a v T. eapply tells_mono; [| |exact T].
  - intros v' bits K. destruct K as [t v' bits K _|b' v' bits K K'].
    + destruct b; discriminate K.
    + apply clean_message; [exact H5|]. destruct b as [u|]; cbn [base_of] in K; rewrite K in K'; exact K'.
  - intros v' ([K|(t & K & _)] & K'); [rewrite H5 in K; split; assumption|]. destruct b; discriminate K.
Qed.
End Call.

Lemma verr_invalid_credentials v : verr_name v = $"invalid-credentials" -> v = VInvalidCredentials.
Proof. destruct v; vm_compute; intros H; try discriminate H; reflexivity. Qed.
Lemma empty_credentials X s base enc en : tells (call_message (m_env X) (m_icu_code X) base enc s) (unquoted (has_validity (m_env X)) (call_unquotable (m_env X) base s)) en VInvalidCredentials ->
  forall q, e_text en = Some ($"invalid-credentials: credentials are empty: " ++ q) ->
  exists x p, (x = s \/ base = BStr x) /\ nth_error (std_input x) p = Some 64 /\ forall c, nth_error (std_input x) (S p) = Some c -> In c $"/?#\".
Proof.
  intros (_ & H) q Q. rewrite Q in H. destruct H as (bits & m & H & Sp & T). change (headed VInvalidCredentials m) with ($"invalid-credentials: " ++ m) in T.
  change ($"invalid-credentials: credentials are empty: " ++ q) with ($"invalid-credentials: " ++ $"credentials are empty: " ++ q) in T. apply app_inv_head in T.
  assert (G : forall b x, input_message (m_env X) (m_icu_code X) b x VInvalidCredentials bits -> exists p, nth_error (std_input x) p = Some 64 /\ forall c, nth_error (std_input x) (S p) = Some c -> In c $"/?#\").
  { intros b x K. remember VInvalidCredentials as v eqn:V. destruct K as [| |v bits K]; try discriminate V. destruct K as [| |p K|p K1 K2| | | | | | | | | | |h v bits K1 K2]; try discriminate V.
    - exfalso. assert (F : firstn 1 m = $"i") by (clear - Sp; inversion Sp; reflexivity). rewrite <- T in F. clear - F. discriminate F.
    - exists p. split; assumption.
    - subst v. exfalso. clear - K2. remember VInvalidCredentials as v eqn:V. destruct K2 as [|a v bits K K2| | | | | | | |errors d v bits K K' K2]; try discriminate V; subst v; inversion K2. }
  destruct H as [t v bits H K|b v bits H K].
  - destruct (G _ _ K) as (p & G1 & G2). exists t, p. auto.
  - destruct (G _ _ K) as (p & G1 & G2). exists s, p. auto.
Qed.
Lemma parse_url_credentials lv X s base enc : limit_ok (m_env X) -> idna_ok (m_env X) ->
  enc_ok (m_env X) (normalize_encoding (m_env X) enc) -> is_pystr s -> short s -> base_parsed (m_env X) base -> (forall t, base = BStr t -> short t) ->
  forall q, In (mkentry lv $"invalid-credentials" (Some ($"invalid-credentials: credentials are empty: " ++ q))) (fst (m_parse_url X s base enc)) ->
  exists x p, (x = s \/ base = BStr x) /\ nth_error (std_input x) p = Some 64 /\ forall c, nth_error (std_input x) (S p) = Some c -> In c $"/?#\".
Proof.
  intros H1 H2 H4 H5 H6 H7 H8 q H. pose proof (proj1 (parse_url_sim X H1 H2 s base enc H4 H5 H6 H7 H8)) as K.
  revert H. induction K as [|a v l l' T K IH]; [contradiction|]. intros [H|H]; [|exact (IH H)]. subst a. pose proof (proj1 T) as V. cbn [e_type] in V. symmetry in V. apply verr_invalid_credentials in V. subst v.
  eapply empty_credentials; [exact T|reflexivity].
Qed.
