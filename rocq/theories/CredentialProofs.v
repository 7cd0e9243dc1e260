(** An authority that ends right after "@" (C114): the exception and its text. *)
From Coq Require Import Ascii String.
From Coq Require Import NArith ZArith Bool Arith Lia ZifyBool ZifyN ZifyNat List.
From Verif Require Import PyStr PyInt Codec Env HostModel UrlRecord Parser FlatParser Repr Idna Message MsgHost MsgParser Lemmas LoopProofs FlatProofs IPv4Proofs HostProofs WfProofs UrlProps ObjProofs
  MsgProofs MsgHostProofs MsgParserProofs MsgCallProofs StandardProofs WritingProofs SpecText SpecHost SpecPyInt SpecUrl SpecParser SpecReports SpecRepr SpecIdna SpecMessages SpecReference.
Import ListNotations.
Open Scope N_scope.

Section Told.
Context (X : menv) (HL : limit_ok (m_env X)).
Local Notation E := (m_env X).
Context (HI : forall d errors o, icu_to_ascii E 28 d = IcuOk errors o -> counted errors = 0 -> o <> [] -> is_pystr o).
Context (base : option urlrec) (HB : forall b, base = Some b -> is_pystr (href b)).
Context (src : str) (HS : is_pystr src) (HN : N.of_nat (length src) < 10 ^ 640).
Definition told' {A} (l : list entry) (r : mres A) : Prop :=
  exists l0 m, l = l0 ++ [mkentry ERROR $"invalid-credentials" (Some ($"invalid-credentials: " ++ m))] /\ spells [Txt $"credentials are empty: "; Lit (PStr src)] m /\ r = MErr EURLParse (Some m).
Definition told {A} (x : list entry * (urlrec * mres A)) : Prop := told' (fst x) (snd (snd x)).

Lemma fail_told {A} u : told (@mm_fail A X $"invalid-credentials: credentials are empty: %r" [PStr src] EURLParse $"credentials are empty: %r" [PStr src] u).
Proof.
  pose (P := fun (v : verr) (b : list bit) => b = [Txt $"credentials are empty: "; Lit (PStr src)]).
  assert (O : Forall (okbit X) [Txt $"credentials are empty: "; Lit (PStr src)]) by (constructor; [exact I|constructor; [now apply ok_str|constructor]]).
  destruct (format_good X VInvalidCredentials $"invalid-credentials: credentials are empty: %r" [PStr src] [Txt $"credentials are empty: "; Lit (PStr src)]) as (K1 & K2 & K3); [vm_compute; reflexivity|discriminate|reflexivity|exact O|].
  change (body VInvalidCredentials $"invalid-credentials: credentials are empty: %r") with $"credentials are empty: %r" in K3.
  unfold mm_fail, mm_bind, mm_lift, mm_raise, noted, raised. rewrite K1, K2, K3. cbn [fst snd app]. exists [], (show X [Txt $"credentials are empty: "; Lit (PStr src)]).
  split; [reflexivity|]. split; [now apply spells_show|reflexivity].
Qed.
Lemma then_told {A B} (m : MM A) (f : A -> MM B) u l u' a : m u = (l, (u', MOk a)) -> told (f a u') -> told (mm_bind m f u).
Proof.
  intros H (l0 & x & T1 & T2 & T3). unfold mm_bind. rewrite H. destruct (f a u') as [l' r]. cbn [fst snd] in *. exists (l ++ l0), x. cbn [fst snd]. rewrite T1, app_assoc. auto.
Qed.
Lemma bind_told {A B} (m : MM A) (f : A -> MM B) u : told (m u) -> told (mm_bind m f u).
Proof. intros (l0 & x & T1 & T2 & T3). unfold mm_bind. destruct (m u) as [l [u' r]]. cbn [fst snd] in *. rewrite T3. exists l0, x. auto. Qed.
Lemma note_at p u : (p <= length src)%nat -> exists l, mm_note X $"invalid-credentials: input includes credentials: %r at position %d" [PStr src; PInt (N.of_nat p)] u = (l, (u, MOk tt)).
Proof.
  intros H. destruct (format_good X VInvalidCredentials $"invalid-credentials: input includes credentials: %r at position %d" [PStr src; PInt (N.of_nat p)]
    [Txt $"input includes credentials: "; Lit (PStr src); Txt $" at position "; Dec (N.of_nat p)]) as (K1 & K2 & _); [vm_compute; reflexivity|discriminate|reflexivity| |].
  - constructor; [exact I|]. constructor; [now apply ok_str|]. constructor; [exact I|]. constructor; [|constructor]. apply small_prints; [exact HL|]. lia.
  - unfold mm_note, mm_lift, noted. rewrite K1. eexists. reflexivity.
Qed.

Definition ender (sp : bool) (c : N) : bool := mem c $"/?#" || (sp && (c =? 92)).
Lemma end_told i u : told (m_authority_end X src i [] true u).
Proof. unfold m_authority_end. cbn [length Nat.eqb andb]. apply fail_told. Qed.
Lemma loop_told r : forall a i buffer seen pseen u, (i + length (a ++ 64%N :: r) <= length src)%nat ->
  Forall (fun c => ender (is_special u) c = false) a -> (forall c t, r = c :: t -> ender (is_special u) c = true) ->
  told (m_authority_loop X src (a ++ 64 :: r) i buffer seen pseen u).
Proof.
  assert (AT : forall t u i (buffer : str) (seen pseen : bool), (i <= length src)%nat ->
    (forall pseen' u', is_special u' = is_special u -> told (m_authority_loop X src t (i + 1) [] true pseen' u')) -> told (m_authority_loop X src (64 :: t) i buffer seen pseen u)).
  { intros t u i buffer seen pseen L K. cbn [m_authority_loop]. cbv zeta. rewrite N.eqb_refl. replace (i + 1 - 1)%nat with i by lia. destruct (note_at i u L) as (l & N1). eapply then_told; [exact N1|].
    set (b := if seen then $"%40" ++ buffer else buffer). clearbody b. destruct (if pseen then ([], b, true) else find_colon_split b) as [[us pw] sn].
    eapply then_told with (a := tt) (l := []) (u' := if negb (length us =? 0)%nat then set_username (username u ++ utf8_percent_encode us SAFE_USERINFO false) u else u); [destruct (negb (length us =? 0)%nat); reflexivity|].
    match goal with |- told (_ ?v) => set (v1 := v) end. assert (S1 : is_special v1 = is_special u) by (unfold v1; destruct (negb _); reflexivity). clearbody v1.
    eapply then_told with (a := tt) (l := []) (u' := if negb (length pw =? 0)%nat then set_password (password v1 ++ utf8_percent_encode pw SAFE_USERINFO false) v1 else v1); [destruct (negb (length pw =? 0)%nat); reflexivity|].
    apply K. rewrite <- S1. destruct (negb (length pw =? 0)%nat); reflexivity. }
  induction a as [|c a IH]; intros i buffer seen pseen u L F R.
  - cbn [app]. cbn [app length] in L. apply AT; [lia|]. intros ps u' S'. destruct r as [|c t]; cbn [m_authority_loop]; [apply end_told|]. cbv zeta.
    pose proof (R c t eq_refl) as C. assert (C64 : (c =? 64) = false) by (unfold ender in C; apply N.eqb_neq; intros ->; destruct (is_special u); discriminate C). rewrite C64. eapply then_told with (l := []); [reflexivity|].
    cbv beta. unfold ender in C. rewrite S', C. apply end_told.
  - cbn [app length] in L |- *. inversion F as [|c' a' F1 F2]; subst c' a'. destruct (c =? 64) eqn:C.
    + apply N.eqb_eq in C as ->. apply AT; [lia|]. intros ps u' S'. apply IH; [lia|now rewrite S'|now rewrite S'].
    + cbn [m_authority_loop]. cbv zeta. rewrite C. eapply then_told with (l := []); [reflexivity|]. cbv beta. unfold ender in F1. rewrite F1. apply IH; [lia|exact F2|exact R].
Qed.

(** one step of the machine *)
Lemma step_told f enc st i u st' k u' : st <> EOF -> (i <= length src)%nat -> inv src None st i ->
  snd (step E base enc None st (skipn i src) u) = (u', Ok (st', k)) ->
  ((i + k <= length src)%nat -> inv src None st' (i + k) -> told (m_run X f base enc None st' src (i + k) u')) -> told (m_run X (S f) base enc None st src i u).
Proof.
  intros NE L IV H K. pose proof (step_sim X HL HI base HB src HS HN None st i enc L IV u) as (_ & G1 & G2). rewrite H in G1, G2. cbn [fst snd] in G1, G2.
  assert (Q : told (mm_bind (m_step X base enc None st src i) (fun r => m_run X f base enc None (fst r) src (snd r)) u)).
  { destruct (m_step X base enc None st src i u) as [l [v [[st2 j]|e t]]] eqn:M; cbn [fst snd same] in G1, G2; [|contradiction]. destruct G2 as (Q1 & Q2 & Q3 & Q4). cbn [fst snd] in *. subst v st2 j.
    eapply then_told; [exact M|]. cbn [fst snd]. now apply K. }
  destruct st; try exact Q. contradiction.
Qed.
Lemma auth_told f enc i u a r : (i <= length src)%nat -> skipn i src = a ++ 64 :: r -> Forall (fun c => ender (is_special u) c = false) a -> (forall c t, r = c :: t -> ender (is_special u) c = true) ->
  told (m_run X (S f) base enc None AUTHORITY src i u).
Proof.
  intros L Q F R. cbn [m_run m_step]. apply bind_told. unfold m_parse_authority, from. rewrite Q. apply bind_told, loop_told; [|exact F|exact R]. rewrite <- Q, skipn_length. lia.
Qed.
Lemma ignore_told f enc i u a r : (i <= length src)%nat -> skipn i src = a ++ 64 :: r -> is_special u = true -> Forall (fun c => ender true c = false) a -> (forall c t, r = c :: t -> ender true c = true) ->
  told (m_run X (S (S f)) base enc None SPECIAL_AUTHORITY_IGNORE_SLASHES src i u).
Proof.
  intros L Q S1 F R. eapply step_told with (st' := AUTHORITY) (k := 0%nat) (u' := u); [discriminate|exact L|split; [intros [K|K]; discriminate K|discriminate]| |].
  - rewrite Q. cbn [step]. unfold parse_ignore_slashes. destruct a as [|c a]; [reflexivity|]. inversion F as [|c' a' F1 F2]; subst. cbn [app ignore_slashes_loop].
    replace (mem c $"/\") with false; [reflexivity|]. symmetry. unfold ender in F1. cbn in F1 |- *. lia.
  - intros _ _. rewrite Nat.add_0_r. eapply auth_told; [exact L|exact Q|now rewrite S1|now rewrite S1].
Qed.
Lemma main_told f enc sch a r : src = sch ++ $"://" ++ a ++ 64 :: r -> std_scheme sch = true -> std_lower sch <> $"file" ->
  let sp := special_scheme (std_lower sch) in Forall (fun c => ender sp c = false) a -> (forall c t, r = c :: t -> ender sp c = true) ->
  told (m_run X (4 + f) base enc None SCHEME_START src 0 new_url).
Proof.
  intros Q H NF sp F R. change (std_lower sch) with (lower sch) in *. change ($"://" ++ a ++ 64 :: r) with (58 :: 47 :: 47 :: a ++ 64 :: r) in Q. change (4 + f)%nat with (S (S (S (S f)))).
  set (u1 := set_scheme (lower sch) new_url). assert (SP : is_special u1 = sp) by reflexivity.
  assert (K1 : skipn (length sch + 1) src = 47 :: 47 :: a ++ 64 :: r).
  { rewrite Q. change (sch ++ 58 :: 47 :: 47 :: a ++ 64 :: r) with (sch ++ [58] ++ 47 :: 47 :: a ++ 64 :: r). rewrite app_assoc. replace (length sch + 1)%nat with (length (sch ++ [58])) by (rewrite app_length; reflexivity). now rewrite skipn_app, skipn_all, Nat.sub_diag. }
  destruct (skip_cons _ _ _ _ K1) as (K2 & _ & L2). destruct (skip_cons _ _ _ _ K2) as (K3 & _ & L3).
  assert (SS : scheme_split src = Some (sch, 47 :: 47 :: a ++ 64 :: r)) by (apply scheme_split_iff; split; [exact Q|exact H]).
  assert (ST : snd (step E base enc None SCHEME_START (skipn 0 src) new_url) = run (scheme_colon base None (47 :: 47 :: a ++ 64 :: r) (S (length sch)) sch) new_url).
  { cbn [skipn step]. change (snd (parse_scheme src base None new_url)) with (run (parse_scheme src base None) new_url). unfold scheme_split in SS. unfold parse_scheme. destruct src as [|c t]; [discriminate SS|]. destruct (mem c ASCII_ALPHA); [|discriminate SS].
    rewrite run_scheme_loop. destruct (span is_scheme_char t) as [p [|x y]]; [discriminate SS|]. destruct (x =? 58); [|discriminate SS]. injection SS as <- ->. reflexivity. }
  unfold scheme_colon in ST. cbv zeta in ST. cbn [overridden andb] in ST.
  assert (NF' : str_eqb (lower sch) $"file" = false) by now apply str_eqb_neq. rewrite NF' in ST.
  assert (I0 : inv src None SCHEME_START 0) by (split; [intros [K|K]; discriminate K|auto]).
  destruct (special_scheme (lower sch)) eqn:S0; subst sp.
  - assert (IG : forall st', st' = SPECIAL_AUTHORITY_SLASHES \/ st' = SPECIAL_RELATIVE_OR_AUTHORITY -> inv src None st' (0 + S (length sch)) -> told (m_run X (S (S (S f))) base enc None st' src (0 + S (length sch)) u1)).
    { intros st' E1 IV. eapply step_told with (st' := SPECIAL_AUTHORITY_IGNORE_SLASHES) (k := 2%nat) (u' := u1); [destruct E1 as [-> | ->]; discriminate|lia|exact IV| |].
      - cbn [Nat.add]. replace (S (length sch)) with (length sch + 1)%nat by lia. rewrite K1. destruct E1 as [-> | ->]; reflexivity.
      - intros _ _. eapply ignore_told; [lia| |exact SP|exact F|exact R]. replace (0 + S (length sch) + 2)%nat with (length sch + 1 + 1 + 1)%nat by lia. exact K3. }
    cbn [andb] in ST. destruct (match base with Some b => str_eqb (scheme b) (lower sch) | None => false end).
    + eapply step_told with (st' := SPECIAL_RELATIVE_OR_AUTHORITY) (k := S (length sch)) (u' := u1); [discriminate|lia|exact I0|exact ST|]. intros _ IV. apply IG; [now right|exact IV].
    + eapply step_told with (st' := SPECIAL_AUTHORITY_SLASHES) (k := S (length sch)) (u' := u1); [discriminate|lia|exact I0|exact ST|]. intros _ IV. apply IG; [now left|exact IV].
  - cbn [andb] in ST. eapply step_told with (st' := PATH_OR_AUTHORITY) (k := S (S (length sch))) (u' := u1); [discriminate|lia|exact I0|exact ST|]. intros L4 IV.
    eapply step_told with (st' := AUTHORITY) (k := 1%nat) (u' := u1); [discriminate|lia|exact IV| |].
    + replace (0 + S (S (length sch)))%nat with (length sch + 1 + 1)%nat by lia. rewrite K2. reflexivity.
    + intros _ _. eapply auth_told; [lia| |rewrite SP; exact F|rewrite SP; exact R]. replace (0 + S (S (length sch)) + 1)%nat with (length sch + 1 + 1 + 1)%nat by lia. exact K3.
Qed.
Lemma relative_told f enc b a r : base = Some b -> src = $"//" ++ a ++ 64 :: r -> has_opaque_path b = false -> scheme b <> $"file" ->
  let sp := special_scheme (scheme b) in Forall (fun c => ender sp c = false) a -> (forall c t, r = c :: t -> ender sp c = true) ->
  told (m_run X (6 + f) base enc None SCHEME_START src 0 new_url).
Proof.
  intros BB Q NO NF sp F R. change ($"//" ++ a ++ 64 :: r) with (47 :: 47 :: a ++ 64 :: r) in Q. change (6 + f)%nat with (S (S (S (S (S (S f)))))).
  set (u1 := set_scheme (scheme b) new_url). assert (SP : is_special u1 = sp) by reflexivity. assert (K1 : skipn 0 src = 47 :: 47 :: a ++ 64 :: r) by exact Q.
  destruct (skip_cons _ _ _ _ K1) as (K2 & _ & L2). destruct (skip_cons _ _ _ _ K2) as (K3 & _ & L3). cbn [Nat.add] in K2, K3, L2, L3.
  assert (NF' : str_eqb (scheme b) $"file" = false) by now apply str_eqb_neq.
  eapply step_told with (st' := NO_SCHEME) (k := 0%nat) (u' := new_url); [discriminate|lia|split; [intros [K|K]; discriminate K|auto]|rewrite K1; reflexivity|]. intros _ I1.
  eapply step_told with (st' := RELATIVE) (k := 0%nat) (u' := new_url); [discriminate|lia|exact I1|cbn [Nat.add]; rewrite K1, BB; cbn [step]; unfold parse_no_scheme; cbv zeta; rewrite NO, NF'; reflexivity|]. intros _ I2.
  eapply step_told with (st' := RELATIVE_SLASH) (k := 1%nat) (u' := u1); [discriminate|lia|exact I2|cbn [Nat.add]; rewrite K1, BB; cbn [step]; unfold parse_relative; rewrite NF'; reflexivity|]. intros _ I3.
  destruct (special_scheme (scheme b)) eqn:S0; subst sp.
  - eapply step_told with (st' := SPECIAL_AUTHORITY_IGNORE_SLASHES) (k := 1%nat) (u' := u1); [discriminate|lia|exact I3| |].
    + cbn [Nat.add]. rewrite K2. cbn [step]. unfold parse_relative_slash, bind, get. rewrite SP. reflexivity.
    + intros _ _. eapply ignore_told; [lia|exact K3|exact SP|exact F|exact R].
  - eapply step_told with (st' := AUTHORITY) (k := 1%nat) (u' := u1); [discriminate|lia|exact I3| |].
    + cbn [Nat.add]. rewrite K2. cbn [step]. unfold parse_relative_slash, bind, get. rewrite SP. reflexivity.
    + intros _ _. eapply auth_told; [lia|exact K3|rewrite SP; exact F|rewrite SP; exact R].
Qed.
End Told.

Section Call.
Context (X : menv).
Local Notation E := (m_env X).
Context (HL : limit_ok E) (HID : idna_ok E).
Lemma note_str v msg bits s u : good v msg = true -> fill [] (body v msg) [PStr s] = Some bits -> Forall (okbit X) bits -> exists l, mm_note X msg [PStr s] u = (l, (u, MOk tt)).
Proof.
  intros G F O. destruct (format_good X v msg [PStr s] bits G) as (K1 & K2 & _); [discriminate|exact F|exact O|]. unfold mm_note, mm_lift, noted. rewrite K1. eexists. reflexivity.
Qed.
Lemma pystr_strip s : is_pystr s -> is_pystr (strip_c0 s).
Proof. apply pystr_sub. unfold strip_c0, rstrip_by. intros c H. apply in_rev in H. apply drop_while_in, in_rev, drop_while_in in H. exact H. Qed.
Lemma new_told base s enc : is_pystr s ->
  told (std_input s) (m_run X FSM_FUEL base (normalize_encoding E enc) None SCHEME_START (std_input s) 0 new_url) ->
  told' (std_input s) (fst (m_parse_new X s base enc)) (snd (m_parse_new X s base enc)).
Proof.
  intros HS MT. assert (SI : std_input s = remove_tabs (strip_c0 s)) by (rewrite StandardProofs.input_eq; reflexivity).
  assert (T : told (std_input s) ((mm_when (needs_strip s) (mm_note X $"invalid-URL-unit: remove any leading and trailing C0 control or space from %r" [PStr s]) >m m_parse_into X (strip_c0 s) base enc None) new_url)).
  { assert (W : exists l, mm_when (needs_strip s) (mm_note X $"invalid-URL-unit: remove any leading and trailing C0 control or space from %r" [PStr s]) new_url = (l, (new_url, MOk tt))).
    { destruct (needs_strip s); [|eexists; reflexivity]. eapply note_str with (v := VInvalidURLUnit); [vm_compute; reflexivity|reflexivity|]. constructor; [exact I|]. constructor; [now apply ok_str|constructor]. }
    destruct W as (l & W). eapply then_told; [exact W|]. unfold m_parse_into. set (x := strip_c0 s) in *.
    assert (W2 : exists l, mm_when (existsb is_tab_newline x) (mm_note X $"invalid-URL-unit: remove all ASCII tab or newline from %r" [PStr x]) new_url = (l, (new_url, MOk tt))).
    { destruct (existsb is_tab_newline x); [|eexists; reflexivity]. eapply note_str with (v := VInvalidURLUnit); [vm_compute; reflexivity|reflexivity|]. constructor; [exact I|]. constructor; [apply ok_str; now apply pystr_strip|constructor]. }
    destruct W2 as (l2 & W2). eapply then_told; [exact W2|]. cbv beta iota. rewrite <- SI. exact MT. }
  unfold m_parse_new. destruct T as (l0 & m & T1 & T2 & T3). destruct ((mm_when (needs_strip s) _ >m _) new_url) as [l [u [y|e t]]]; cbn [fst snd] in *; [discriminate T3|]. injection T3 as -> ->. exists l0, m. auto.
Qed.
Definition ends_told (s : str) (base : base_arg) (enc : str) : Prop :=
  exists l m, spells [Txt $"credentials are empty: "; Lit (PStr (std_input s))] m /\
    m_parse_url X s base enc = (l ++ [mkentry ERROR $"invalid-credentials" (Some ($"invalid-credentials: " ++ m))], MErr EURLParse (Some m)).
Lemma call_told s base enc (A : option urlrec -> Prop) : enc_ok E (normalize_encoding E enc) -> is_pystr s -> short s -> base_parsed E base -> (forall t, base = BStr t -> short t) ->
  (exists b, A b /\ match b with None => base = BNone | Some v => base_record E base enc v end) ->
  (forall b, A b -> (forall u, b = Some u -> is_pystr (href u)) -> is_pystr (std_input s) -> N.of_nat (length (std_input s)) < 10 ^ 640 ->
     told (std_input s) (m_run X FSM_FUEL b (normalize_encoding E enc) None SCHEME_START (std_input s) 0 new_url)) -> ends_told s base enc.
Proof.
  intros HE HS SH HB SB (b & HA & OB) RT.
  assert (PS : is_pystr (std_input s)) by (rewrite StandardProofs.input_eq; change (clean s) with (remove_tabs (strip_c0 s)); apply ApiProofs.remove_tabs_pystr; now apply pystr_strip).
  assert (G : forall l, (forall u, b = Some u -> is_pystr (href u)) -> exists l' m, spells [Txt $"credentials are empty: "; Lit (PStr (std_input s))] m /\
    (let (l2, x) := m_parse_new X s b enc in (l ++ l2, x)) = (l' ++ [mkentry ERROR $"invalid-credentials" (Some ($"invalid-credentials: " ++ m))], MErr EURLParse (Some m))).
  { intros l K. destruct (new_told b s enc HS (RT b HA K PS (short_input s SH))) as (l0 & m & T1 & T2 & T3). destruct (m_parse_new X s b enc) as [l2 x]. cbn [fst snd] in *. exists (l ++ l0), m. split; [exact T2|]. now rewrite T1, T3, app_assoc. }
  unfold ends_told, m_parse_url. destruct b as [b|].
  - destruct OB as [-> | (t & -> & B)]; cbn [base_parsed] in HB.
    + apply (G []). intros u U. injection U as <-. apply (wf_href_pystr X HL HID). now apply parsed_wf.
    + rewrite parse_url_none in B. assert (N0 : forall b : urlrec, None = Some b -> is_pystr (href b)) by discriminate.
      destruct (parse_new_sim X HL HID None t enc N0 HB (SB t eq_refl)) as (_ & S2). rewrite B in S2. destruct (m_parse_new X t None enc) as [l [b'|e x]]; cbn [fst snd same] in S2; [|contradiction]. subst b'.
      cbn [mw_bind mw_ret]. rewrite app_nil_r. apply (G l). intros u U. injection U as <-. apply (wf_href_pystr X HL HID). eapply (parse_new_wf E t None enc); [exact HE|exact HB|exact I|exact B].
  - subst base. apply (G []). discriminate.
Qed.
Lemma ender_off (sp : bool) a : (forall c, In c a -> ~ In c $"/?#" /\ (sp = true -> c <> 92)) -> Forall (fun c => ender sp c = false) a.
Proof.
  intros F. apply Forall_forall. intros c Hc. destruct (F c Hc) as [F1 F2]. unfold ender. apply orb_false_iff. split.
  - destruct (mem c $"/?#") eqn:M; [|reflexivity]. apply mem_In in M. contradiction.
  - destruct sp; [|reflexivity]. cbn [andb]. apply N.eqb_neq. now apply F2.
Qed.
Lemma ender_on (sp : bool) (r : str) : (forall c t, r = c :: t -> In c $"/?#" \/ (sp = true /\ c = 92)) -> forall c t, r = c :: t -> ender sp c = true.
Proof. intros R c t K. unfold ender. apply orb_true_iff. destruct (R c t K) as [K1|[K1 ->]]; [left; now apply mem_In|right; rewrite K1; reflexivity]. Qed.

Theorem url_told s base enc sch a r : enc_ok E (normalize_encoding E enc) -> is_pystr s -> short s -> base_parsed E base -> (forall t, base = BStr t -> short t) ->
  usable E base enc ->
  std_input s = sch ++ $"://" ++ a ++ $"@" ++ r -> std_scheme sch = true -> std_lower sch <> $"file" ->
  (forall c, In c a -> ~ In c $"/?#" /\ (special_scheme (std_lower sch) = true -> c <> 92)) ->
  (forall c t, r = c :: t -> In c $"/?#" \/ (special_scheme (std_lower sch) = true /\ c = 92)) -> ends_told s base enc.
Proof.
  intros HE HS SH HB SB UB Q H NF F R. apply ender_off in F. pose proof (ender_on _ _ R) as R'.
  apply (call_told s base enc (fun _ => True)); auto.
  - destruct UB as [-> | (b & B)]; [exists None|exists (Some b)]; auto.
  - intros b _ K PS L. change FSM_FUEL with (4 + 16)%nat. apply (main_told X HL (icu_strings X HID) b K (std_input s) PS L 16 (normalize_encoding E enc) sch a r); auto.
Qed.
Theorem relative_url_told s base enc b a r : enc_ok E (normalize_encoding E enc) -> is_pystr s -> short s -> base_parsed E base -> (forall t, base = BStr t -> short t) ->
  base_record E base enc b -> has_opaque_path b = false ->
  std_input s = $"//" ++ a ++ $"@" ++ r -> scheme b <> $"file" ->
  (forall c, In c a -> ~ In c $"/?#" /\ (special_scheme (scheme b) = true -> c <> 92)) ->
  (forall c t, r = c :: t -> In c $"/?#" \/ (special_scheme (scheme b) = true /\ c = 92)) -> ends_told s base enc.
Proof.
  intros HE HS SH HB SB UB O Q NF F R. apply ender_off in F. pose proof (ender_on _ _ R) as R'.
  apply (call_told s base enc (fun x => x = Some b)); auto.
  - exists (Some b). auto.
  - intros b' -> K PS L. change FSM_FUEL with (6 + 14)%nat. apply (relative_told X HL (icu_strings X HID) (Some b) K (std_input s) PS L 14 (normalize_encoding E enc) b a r); auto.
Qed.
End Call.
