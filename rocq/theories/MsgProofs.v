(** Lemmas on messages (C109, C110): formatting, and the two models of the parser side by side. *)
From Coq Require Import Ascii String.
From Coq Require Import NArith ZArith Bool Arith Lia ZifyBool ZifyN ZifyNat List.
From Verif Require Import PyStr PyInt Codec Env HostModel UrlRecord Parser SearchParams UrlApi Repr Idna Message MsgHost MsgParser SpecText SpecHost.
From Verif Require Import Lemmas CodecProofs QuoteProofs PyIntProofs IPv4Proofs IPv6Proofs HostProofs WfProofs ReprProofs IdnaProofs IntGrammar ValidatorProofs.
From Verif Require Import SpecPyInt SpecParams SpecUrl SpecParser SpecReports SpecRepr SpecIdna SpecMessages.
Import ListNotations.
Open Scope N_scope.

(* ---------- formatting ---------- *)
(** a format with arguments as a list of bits; [acc] is the literal text so far *)
Definition flush (acc : str) (l : list bit) : list bit := match acc with [] => l | _ => Txt (rev acc) :: l end.
Definition omap {A B} (f : A -> B) (o : option A) : option B := match o with Some a => Some (f a) | None => None end.
Definition fill_s (o : pyobj) : bit := match o with PStr s => Txt s | PInt n => Dec n | o => Lit o end.
Fixpoint fill (acc fmt : str) (args : list pyobj) : option (list bit) :=
  match fmt with
  | [] => match args with [] => Some (flush acc []) | _ => None end
  | c :: t =>
      if negb (c =? 37) then fill (c :: acc) t args
      else
        match t with
        | [] => None
        | k :: t1 =>
            match args with
            | [] => None
            | o :: args' =>
                if k =? 114 then omap (fun l => flush acc (Lit o :: l)) (fill [] t1 args')
                else if k =? 115 then omap (fun l => flush acc (fill_s o :: l)) (fill [] t1 args')
                else if k =? 100 then match o with PInt n => omap (fun l => flush acc (Dec n :: l)) (fill [] t1 args') | _ => None end
                else
                  match t1 with
                  | k2 :: k3 :: t3 =>
                      if (k =? 48) && (k2 =? 52) && (k3 =? 88)
                      then match o with PInt n => omap (fun l => flush acc (Hex4 n :: l)) (fill [] t3 args') | _ => None end
                      else None
                  | _ => None
                  end
            end
        end
  end.

Section Format.
Context (X : menv).
Local Notation E := (m_env X).
Definition show1 (b : bit) : str :=
  match b with
  | Txt s => s
  | Lit o => match py_repr E (m_print X) o with Ok t => t | Err _ => [] end
  | Dec n => dec_str n
  | Hex4 n => hex4 n
  end.
Definition show (l : list bit) : str := flat_map show1 l.
Definition okbit (b : bit) : Prop :=
  match b with
  | Lit o => pystr_obj o /\ exists t, py_repr E (m_print X) o = Ok t
  | Dec n => repr_fails E n = false
  | _ => True
  end.
Lemma show_flush acc l : show (flush acc l) = rev acc ++ show l.
Proof. unfold flush, show. destruct acc; [reflexivity|]. reflexivity. Qed.
Lemma ok_flush acc l : Forall okbit (flush acc l) -> Forall okbit l.
Proof. unfold flush. destruct acc; [auto|]. intros H. now inversion H. Qed.
Lemma dec_num_ok n : okbit (Dec n) -> py_repr E (m_print X) (PInt n) = Ok (dec_str n).
Proof. cbn [okbit py_repr]. now intros ->. Qed.

Lemma fill_fine acc fmt args : forall bits, fill acc fmt args = Some bits -> Forall okbit bits ->
  exists m, py_mod X fmt args = Ok m /\ show bits = rev acc ++ m.
Proof.
  revert acc args. remember (length fmt) as n eqn:Hn. assert (Hn' : (length fmt <= n)%nat) by lia. clear Hn. revert fmt Hn'. induction n as [|n IH]; intros fmt Hn acc args bits F O.
  { destruct fmt; [|cbn [length] in Hn; lia]. cbn [fill] in F. destruct args; [|discriminate F]. injection F as <-. exists []. split; [reflexivity|]. apply show_flush. }
  destruct fmt as [|c t]; [cbn [fill] in F; destruct args; [|discriminate F]; injection F as <-; exists []; split; [reflexivity|]; apply show_flush|].
  cbn [length] in Hn. cbn [fill] in F. cbn [py_mod]. destruct (negb (c =? 37)).
  { apply IH in F as (m & M1 & M2); [|lia|exact O]. rewrite M1. exists (c :: m). split; [reflexivity|]. cbn [rev] in M2. rewrite M2, <- app_assoc. reflexivity. }
  destruct t as [|k t]; [discriminate F|]. destruct args as [|o args]; [discriminate F|]. cbn [length] in Hn.
  assert (STEP : forall t' b f, (length t' <= n)%nat -> (okbit b -> f = Ok (show1 b)) -> omap (fun l => flush acc (b :: l)) (fill [] t' args) = Some bits ->
     exists m, cat f (py_mod X t' args) = Ok m /\ show bits = rev acc ++ m).
  { intros t' b f L Hf G. destruct (fill [] t' args) as [l|] eqn:Q; [|discriminate G]. cbn [omap] in G. injection G as <-. apply ok_flush in O. inversion O as [|? ? O1 O2]; subst.
    apply IH in Q as (m & M1 & M2); [|lia|exact O2]. cbn [rev app] in M2. rewrite (Hf O1), M1. exists (show1 b ++ m). split; [reflexivity|]. rewrite show_flush. cbn [show flat_map]. change (flat_map show1 l) with (show l). now rewrite M2. }
  destruct (k =? 37) eqn:K37.
  { apply N.eqb_eq in K37. subst k. cbv iota in F. change (37 =? 114) with false in F. change (37 =? 115) with false in F. change (37 =? 100) with false in F. change (37 =? 48) with false in F. cbv iota in F. cbn [andb] in F. destruct t as [|? [|? ?]]; discriminate F. }
  destruct (k =? 114); [eapply STEP; [| |exact F]; [lia|]; cbn [okbit show1]; intros (_ & t0 & ->); reflexivity|].
  destruct (k =? 115).
  { eapply STEP; [| |exact F]; [lia|]. unfold conv_s, fill_s. destruct o as [|n0|s|b l].
    - cbn [okbit show1]. intros (_ & t0 & ->). reflexivity.
    - apply dec_num_ok.
    - reflexivity.
    - cbn [okbit show1]. intros (_ & t0 & ->). reflexivity. }
  destruct (k =? 100); [destruct o as [|n0| |]; try discriminate F; eapply STEP; [| |exact F]; [lia|]; apply dec_num_ok|].
  destruct t as [|k2 [|k3 t3]]; try discriminate F. destruct ((k =? 48) && (k2 =? 52) && (k3 =? 88)); [|discriminate F]. cbn [length] in Hn.
  destruct o as [|n0| |]; try discriminate F; (eapply STEP; [| |exact F]; [lia|]); reflexivity.
Qed.

(* a number above the digit limit *)
Definition failbit (b : bit) : Prop :=
  match b with
  | Lit o => py_repr E (m_print X) o = Err EValue
  | Dec n => repr_fails E n = true
  | _ => False
  end.
Lemma exists_flush acc l : Exists failbit (flush acc l) -> Exists failbit l.
Proof. unfold flush. destruct acc; [auto|]. intros H. inversion H as [? ? K|? ? K]; subst; [destruct K|exact K]. Qed.
Lemma forall_flush acc l : Forall (fun b => okbit b \/ failbit b) (flush acc l) -> Forall (fun b => okbit b \/ failbit b) l.
Proof. unfold flush. destruct acc; [auto|]. intros H. now inversion H. Qed.
Lemma fill_err acc fmt args : forall bits, fill acc fmt args = Some bits -> Forall (fun b => okbit b \/ failbit b) bits -> Exists failbit bits ->
  py_mod X fmt args = Err EValue.
Proof.
  revert acc args. remember (length fmt) as n eqn:Hn. assert (Hn' : (length fmt <= n)%nat) by lia. clear Hn. revert fmt Hn'. induction n as [|n IH]; intros fmt Hn acc args bits F O X0.
  { destruct fmt; [|cbn [length] in Hn; lia]. cbn [fill] in F. destruct args; [|discriminate F]. injection F as <-. apply exists_flush in X0. inversion X0. }
  destruct fmt as [|c t]; [cbn [fill] in F; destruct args; [|discriminate F]; injection F as <-; apply exists_flush in X0; inversion X0|].
  cbn [length] in Hn. cbn [fill] in F. cbn [py_mod]. destruct (negb (c =? 37)).
  { apply IH in F; [|lia|exact O|exact X0]. rewrite F. reflexivity. }
  destruct t as [|k t]; [discriminate F|]. destruct args as [|o args]; [discriminate F|]. cbn [length] in Hn.
  assert (STEP : forall t' b f, (length t' <= n)%nat -> (okbit b -> f = Ok (show1 b)) -> (failbit b -> f = Err EValue) -> omap (fun l => flush acc (b :: l)) (fill [] t' args) = Some bits ->
     cat f (py_mod X t' args) = Err EValue).
  { intros t' b f L Hf Hg G. destruct (fill [] t' args) as [l|] eqn:Q; [|discriminate G]. cbn [omap] in G. injection G as <-. apply forall_flush in O. inversion O as [|? ? O1 O2]; subst.
    apply exists_flush in X0. inversion X0 as [? ? K|? ? K]; subst; [rewrite (Hg K); reflexivity|]. apply IH in Q; [|lia|exact O2|exact K]. rewrite Q. destruct O1 as [O1|O1]; [now rewrite (Hf O1)|now rewrite (Hg O1)]. }
  assert (DF : forall m, failbit (Dec m) -> py_repr E (m_print X) (PInt m) = Err EValue) by (intros m K; cbn [py_repr]; now rewrite K).
  destruct (k =? 37) eqn:K37.
  { apply N.eqb_eq in K37. subst k. cbv iota in F. change (37 =? 114) with false in F. change (37 =? 115) with false in F. change (37 =? 100) with false in F. change (37 =? 48) with false in F. cbv iota in F. cbn [andb] in F. destruct t as [|? [|? ?]]; discriminate F. }
  destruct (k =? 114); [eapply STEP; [| | |exact F]; [lia| |auto]; cbn [okbit show1]; intros (_ & t0 & ->); reflexivity|].
  destruct (k =? 115).
  { eapply STEP; [| | |exact F]; [lia| |]; unfold conv_s, fill_s; destruct o as [|n0|s|b l].
    - cbn [okbit show1]. intros (_ & t0 & ->). reflexivity.
    - apply dec_num_ok.
    - reflexivity.
    - cbn [okbit show1]. intros (_ & t0 & ->). reflexivity.
    - auto.
    - apply DF.
    - intros [].
    - auto. }
  destruct (k =? 100); [destruct o as [|n0| |]; try discriminate F; eapply STEP; [| | |exact F]; [lia|apply dec_num_ok|apply DF]|].
  destruct t as [|k2 [|k3 t3]]; try discriminate F. destruct ((k =? 48) && (k2 =? 52) && (k3 =? 88)); [|discriminate F]. cbn [length] in Hn.
  destruct o as [|n0| |]; try discriminate F; (eapply STEP; [| | |exact F]; [lia| |]); [reflexivity|intros []].
Qed.

(* what is shown can be read *)
Lemma dec_str_text n : decimal_text (dec_str n) n.
Proof.
  repeat split.
  - apply dec_str_nonempty.
  - pose proof (dec_str_digits n) as F. eapply Forall_impl; [|exact F]. cbv beta. intros c H. unfold std_digit. lia.
  - apply dec_decimal.
  - intros t H. destruct (digits_spec 10 n ltac:(lia)) as (_ & F & _ & Z). unfold dec_str in H. destruct (N.eq_dec n 0) as [->|N0]; [vm_compute in H; congruence|].
    destruct (digits 10 n) as [|d ds] eqn:D; [discriminate H|]. cbn [map] in H. injection H as H1 _. exfalso. apply (Z N0 ds). f_equal. inversion F; subst. unfold digit_char in H1. destruct (d <? 10) eqn:Q; lia.
Qed.
Lemma hex1_upper d : d < 16 -> read_hex1 (hex_upper d) = Some d.
Proof.
  intros H. unfold read_hex1, hex_upper. destruct (d <? 10) eqn:Q.
  - replace ((48 <=? 48 + d) && (48 + d <=? 57)) with true by lia. f_equal. lia.
  - replace ((48 <=? 55 + d) && (55 + d <=? 57)) with false by lia. replace ((97 <=? 55 + d) && (55 + d <=? 102)) with false by lia. replace ((65 <=? 55 + d) && (55 + d <=? 70)) with true by lia. f_equal. lia.
Qed.
Lemma upper_digits ds : Forall (fun d => d < 16) ds -> forall v, read_hex (length ds) v (map hex_upper ds) = Some (fold_left (fun a d => a * 16 + d) ds v, []).
Proof. induction 1 as [|d ds H F IH]; intros v; [reflexivity|]. cbn [length map read_hex fold_left]. rewrite hex1_upper by exact H. apply IH. Qed.
Lemma hex4_fine n : hex4_text (hex4 n) n.
Proof.
  unfold hex4, hex_upper_str. rewrite map_length. destruct (digits_spec 16 n ltac:(lia)) as (V & F & _ & Z). set (ds := digits 16 n) in *. repeat split.
  - apply Forall_app. split; [apply Forall_forall; intros x Hx; apply repeat_spec in Hx; subst x; left; lia|]. apply Forall_map. eapply Forall_impl; [|exact F]. cbv beta. apply hex_upper_range.
  - rewrite app_length, repeat_length, map_length, hex_zeros, upper_digits by exact F. unfold value in V. now rewrite V.
  - rewrite app_length, repeat_length, map_length. lia.
  - rewrite app_length, repeat_length, map_length. intros L t H. replace (4 - length ds)%nat with O in H by lia. cbn [repeat app] in H. destruct (N.eq_dec n 0) as [N0|N0]; [subst ds; subst n; vm_compute in L; lia|].
    destruct ds as [|d ds']; [discriminate H|]. cbn [map] in H. injection H as H1 _. apply (Z N0 ds'). f_equal. inversion F; subst. unfold hex_upper in H1. destruct (d <? 10) eqn:Q; lia.
Qed.
Lemma spells_show bits : Forall okbit bits -> spells bits (show bits).
Proof.
  induction 1 as [|b l H F IH]; [constructor|]. cbn [show flat_map]. change (flat_map show1 l) with (show l). destruct b as [s|o|n|n]; cbn [show1].
  - now constructor.
  - destruct H as (P & t & H). rewrite H. constructor; [|exact IH]. apply repr_readable in H; [|exact P]. destruct (H [] I) as (k & K). exists k. now rewrite app_nil_r in K.
  - constructor; [apply dec_str_text|exact IH].
  - constructor; [apply hex4_fine|exact IH].
Qed.
End Format.

(* ---------- two computations side by side ---------- *)
Definition body (v : verr) (msg : str) : str := skipn (length (headed v [])) msg.
Definition good (v : verr) (msg : str) : bool := str_eqb (error_type msg) (verr_name v) && str_eqb msg (headed v (body v msg)).
Lemma name_plain v : mem 37 (verr_name v) = false.
Proof. destruct v; vm_compute; reflexivity. Qed.
Lemma mod_plain X p fmt args : mem 37 p = false -> py_mod X (p ++ fmt) args = cat (Ok p) (py_mod X fmt args).
Proof.
  induction p as [|c p IH]; intros H; [cbn [app cat]; now destruct (py_mod X fmt args)|]. cbn [mem existsb] in H. apply orb_false_iff in H as [H1 H2]. cbn [app py_mod]. replace (c =? 37) with false by lia.
  cbn [negb]. rewrite IH by exact H2. cbn [cat]. now destruct (py_mod X fmt args).
Qed.
Lemma mod_headed X v fmt args : py_mod X (headed v fmt) args = match py_mod X fmt args with Ok m => Ok (headed v m) | Err e => Err e end.
Proof.
  assert (G : py_mod X ((verr_name v ++ $": ") ++ fmt) args = match py_mod X fmt args with Ok m => Ok (verr_name v ++ $": " ++ m) | Err e => Err e end).
  { rewrite mod_plain; [cbn [cat]; destruct (py_mod X fmt args); [now rewrite app_assoc|reflexivity]|]. unfold mem. rewrite existsb_app. change (existsb (N.eqb 37) (verr_name v)) with (mem 37 (verr_name v)). rewrite name_plain. reflexivity. }
  destruct v; cbn [headed]; try (rewrite <- app_assoc in G; exact G). now destruct (py_mod X fmt args).
Qed.

Section Sim.
Context (X : menv) (P : verr -> list bit -> Prop) (U : verr -> Prop) (Qs : list bit -> Prop).
Local Notation E := (m_env X).
Definition blames' (l : list entry) (e : exc) (t : option str) : Prop :=
  blames P l e t \/ (e = EURLParse /\ exists x bits, t = Some x /\ Qs bits /\ spells bits x).
Definition same {A B} (R : A -> B -> Prop) (l : list entry) (r : mres A) (r' : res B) : Prop :=
  match r, r' with
  | MOk a, Ok b => R a b
  | MErr e t, Err e' => e = e' /\ blames' l e t
  | _, _ => False
  end.
Definition wsim {A B} (R : A -> B -> Prop) (m : MW A) (p : W B) : Prop :=
  Forall2 (tells P U) (fst m) (fst p) /\ same R (fst m) (snd m) (snd p).
Definition msim {A B} (R : A -> B -> Prop) (m : MM A) (p : M B) : Prop :=
  forall u, Forall2 (tells P U) (fst (m u)) (fst (p u)) /\ fst (snd (m u)) = fst (snd (p u)) /\ same R (fst (m u)) (snd (snd (m u))) (snd (snd (p u))).

Lemma blames_more l0 l e t : blames' l e t -> blames' (l0 ++ l) e t.
Proof.
  intros [H|H]; [left|now right]. destruct t as [t|]; [|exact H]. destruct H as (H & l1 & v & bits & m & -> & K). split; [exact H|]. exists (l0 ++ l1), v, bits, m. split; [now rewrite app_assoc|exact K].
Qed.
Lemma same_more {A B} (R : A -> B -> Prop) l0 l r r' : same R l r r' -> same R (l0 ++ l) r r'.
Proof. destruct r, r'; cbn [same]; auto. intros (-> & H). split; [reflexivity|]. now apply blames_more. Qed.

Lemma ws_ret {A B} (R : A -> B -> Prop) a b : R a b -> wsim R (mw_ret a) (wret b).
Proof. intros H. split; [constructor|exact H]. Qed.
Lemma ws_exc {A B} (R : A -> B -> Prop) e : is_url_error e = false -> wsim R (mw_exc e) (wraise e).
Proof. intros H. split; [constructor|]. cbn [mw_exc wraise fst snd same]. split; [reflexivity|]. now left. Qed.
Lemma ws_bind {A B A' B'} (Q : A -> B -> Prop) (R : A' -> B' -> Prop) m p f g :
  wsim Q m p -> (forall a b, Q a b -> wsim R (f a) (g b)) -> wsim R (mw_bind m f) (wbind p g).
Proof.
  intros (H1 & H2) K. destruct m as [l r], p as [l' r']. cbn [fst snd] in *. unfold mw_bind, wbind. destruct r as [a|e t], r' as [b|e']; cbn [same] in H2; try contradiction; [|split; assumption].
  specialize (K a b H2). destruct (f a) as [l2 r2], (g b) as [l2' r2']. destruct K as (K1 & K2). cbn [fst snd] in *. split; [now apply Forall2_app|]. now apply same_more.
Qed.
Lemma ws_opt {A} e (o : option A) : is_url_error e = false -> wsim eq (mw_opt e o) (of_opt e o).
Proof. intros H. destruct o; [now apply ws_ret|now apply ws_exc]. Qed.
Lemma ws_if {A B} (R : A -> B -> Prop) (b : bool) m m' p p' : (b = true -> wsim R m p) -> (b = false -> wsim R m' p') -> wsim R (if b then m else m') (if b then p else p').
Proof. destruct b; auto. Qed.
Lemma ws_mono {A B} (R R' : A -> B -> Prop) m p : (forall a b, R a b -> R' a b) -> wsim R m p -> wsim R' m p.
Proof. intros K (H1 & H2). split; [exact H1|]. destruct (snd m), (snd p); cbn [same] in *; auto. Qed.

(* one message *)
Lemma format_good v msg args bits : good v msg = true -> args <> [] -> fill [] (body v msg) args = Some bits -> Forall (okbit X) bits ->
  format_msg X msg args = Ok (headed v (show X bits)) /\ error_type msg = verr_name v /\ py_mod X (body v msg) args = Ok (show X bits).
Proof.
  intros G A F O. unfold good in G. apply andb_true_iff in G as [G1 G2]. apply str_eqb_eq in G1, G2. destruct (fill_fine X [] _ args bits F O) as (m & M1 & M2). cbn [rev app] in M2. rewrite M2.
  split; [|split; [exact G1|exact M1]]. unfold format_msg. destruct args; [contradiction|]. rewrite G2, mod_headed. now rewrite M1.
Qed.
Lemma entry_tells lv v bits : P v bits -> Forall (okbit X) bits -> tells P U (mkentry lv (verr_name v) (Some (headed v (show X bits)))) v.
Proof. intros H O. split; [reflexivity|]. exists bits, (show X bits). split; [exact H|]. split; [now apply spells_show|reflexivity]. Qed.
Lemma ws_note v msg args bits : good v msg = true -> args <> [] -> fill [] (body v msg) args = Some bits -> Forall (okbit X) bits -> P v bits ->
  wsim eq (mw_note X msg args) (wlog v).
Proof.
  intros G A F O HP. destruct (format_good v msg args bits G A F O) as (K1 & K2 & _). unfold mw_note, noted. rewrite K1, K2. split; [|reflexivity]. constructor; [|constructor]. now apply entry_tells.
Qed.
Lemma ws_fail {A B} (R : A -> B -> Prop) v msg args bits e fmt' args' : good v msg = true -> args <> [] -> fill [] (body v msg) args = Some bits -> Forall (okbit X) bits -> P v bits ->
  fill [] fmt' args' = Some bits -> is_url_error e = true ->
  wsim R (mw_fail X msg args e fmt' args') (wfail v e).
Proof.
  intros G A0 F O HP F' Ue. destruct (format_good v msg args bits G A0 F O) as (K1 & K2 & _). destruct (fill_fine X [] fmt' args' bits F' O) as (m & M1 & M2). cbn [rev app] in M2. subst m.
  unfold mw_fail, mw_note, noted, raised. rewrite K1, K2, M1. cbn [mw_bind app]. split; [constructor; [now apply entry_tells|constructor]|]. cbn [fst snd wfail same]. split; [reflexivity|]. left. cbn [blames]. split; [exact Ue|].
  exists [], v, bits, (show X bits). split; [reflexivity|]. split; [exact HP|]. split; [now apply spells_show|reflexivity].
Qed.

(* numbers that cannot be quoted *)
Lemma format_bad v msg args bits : good v msg = true -> args <> [] -> fill [] (body v msg) args = Some bits -> Forall (fun b => okbit X b \/ failbit X b) bits -> Exists (failbit X) bits ->
  format_msg X msg args = Err EValue /\ error_type msg = verr_name v.
Proof.
  intros G A F O K. unfold good in G. apply andb_true_iff in G as [G1 G2]. apply str_eqb_eq in G1, G2. pose proof (fill_err X [] _ args bits F O K) as M. split; [|exact G1]. unfold format_msg. destruct args; [contradiction|]. now rewrite G2, mod_headed, M.
Qed.
Lemma ws_note_bad v msg args bits : good v msg = true -> args <> [] -> fill [] (body v msg) args = Some bits -> Forall (fun b => okbit X b \/ failbit X b) bits -> Exists (failbit X) bits -> U v ->
  has_validity E = false -> wsim eq (mw_note X msg args) (wlog v).
Proof.
  intros G A F O K HU V. destruct (format_bad v msg args bits G A F O K) as (K1 & K2). unfold mw_note, noted. rewrite K1, K2, V. split; [|reflexivity]. constructor; [|constructor]. now split.
Qed.
Lemma ws_note_raises {B} (R : unit -> B -> Prop) v msg args bits : good v msg = true -> args <> [] -> fill [] (body v msg) args = Some bits -> Forall (fun b => okbit X b \/ failbit X b) bits -> Exists (failbit X) bits -> U v ->
  has_validity E = true -> wsim R (mw_note X msg args) (wfail v EValue).
Proof.
  intros G A F O K HU V. destruct (format_bad v msg args bits G A F O K) as (K1 & K2). unfold mw_note, noted. rewrite K1, K2, V. split; [constructor; [|constructor]; now split|]. cbn [fst snd wfail same]. split; [reflexivity|]. now left.
Qed.
Lemma ws_fail_bad {A B} (R : A -> B -> Prop) v msg args bits e fmt' args' : good v msg = true -> args <> [] -> fill [] (body v msg) args = Some bits -> Forall (fun b => okbit X b \/ failbit X b) bits -> Exists (failbit X) bits -> U v ->
  fill [] fmt' args' = Some bits -> wsim R (mw_fail X msg args e fmt' args') (wfail v EValue).
Proof.
  intros G A0 F O K HU F'. destruct (format_bad v msg args bits G A0 F O K) as (K1 & K2). pose proof (fill_err X [] _ _ bits F' O K) as M.
  unfold mw_fail, mw_note, noted, raised. rewrite K1, K2, M. destruct (has_validity E); cbn [mw_bind app]; (split; [constructor; [|constructor]; now split|]; cbn [fst snd wfail same]; split; [reflexivity|]; now left).
Qed.

Lemma ms_ret {A B} (R : A -> B -> Prop) a b : R a b -> msim R (mm_ret a) (ret b).
Proof. intros H u. split; [constructor|]. split; [reflexivity|exact H]. Qed.
Lemma ms_exc {A B} (R : A -> B -> Prop) e : is_url_error e = false -> msim R (mm_exc e) (raise e).
Proof. intros H u. split; [constructor|]. split; [reflexivity|]. cbn [mm_exc raise fst snd same]. split; [reflexivity|]. now left. Qed.
Lemma ms_get : msim eq mm_get get.
Proof. intros u. repeat split; constructor. Qed.
Lemma ms_set f : msim eq (mm_set f) (modify f).
Proof. intros u. repeat split; constructor. Qed.
Lemma ms_bind {A B A' B'} (Q : A -> B -> Prop) (R : A' -> B' -> Prop) m p f g :
  msim Q m p -> (forall a b, Q a b -> msim R (f a) (g b)) -> msim R (mm_bind m f) (bind p g).
Proof.
  intros H K u. unfold mm_bind, bind. specialize (H u). destruct (m u) as [l [v r]], (p u) as [l' [v' r']]. cbn [fst snd] in H. destruct H as (H1 & <- & H2).
  destruct r as [a|e t], r' as [b|e']; cbn [same] in H2; try contradiction; [|cbn [fst snd same]; auto].
  specialize (K a b H2 v). destruct (f a v) as [l2 [u2 r2]], (g b v) as [l2' [u2' r2']]. cbn [fst snd] in *. destruct K as (K1 & K2 & K3). split; [now apply Forall2_app|]. split; [exact K2|]. now apply same_more.
Qed.
Lemma ms_then {A B} (R : A -> B -> Prop) (m : MM unit) (p : M unit) f g : msim eq m p -> msim R f g -> msim R (m >m f) (p ;; g).
Proof. intros H K. eapply ms_bind; [exact H|]. intros [] [] _. exact K. Qed.
Lemma ms_cond {A B} (R : A -> B -> Prop) (b : bool) m m' p p' : (b = true -> msim R m p) -> (b = false -> msim R m' p') -> msim R (if b then m else m') (if b then p else p').
Proof. destruct b; auto. Qed.
Lemma ms_when b m p : (b = true -> msim eq m p) -> msim eq (mm_when b m) (when b p).
Proof. intros H. destruct b; cbn [mm_when when]; [auto|]. now apply ms_ret. Qed.
Lemma ms_use {A B} (R : A -> B -> Prop) f g : (forall u, msim R (f u) (g u)) -> msim R (u <m mm_get ;; f u) (u <- get ;; g u).
Proof. intros H. eapply ms_bind; [apply ms_get|]. intros a b <-. apply H. Qed.
Lemma ms_mono {A B} (R R' : A -> B -> Prop) m p : (forall a b, R a b -> R' a b) -> msim R m p -> msim R' m p.
Proof. intros K H u. destruct (H u) as (H1 & H2 & H3). split; [exact H1|]. split; [exact H2|]. destruct (snd (snd (m u))), (snd (snd (p u))); cbn [same] in *; auto. Qed.
Lemma ms_lift {A B} (R : A -> B -> Prop) m p : wsim R m p -> msim R (mm_lift m) (lift p).
Proof. intros (H1 & H2) u. cbn [mm_lift lift fst snd]. auto. Qed.
Lemma ms_note v msg args bits : good v msg = true -> args <> [] -> fill [] (body v msg) args = Some bits -> Forall (okbit X) bits -> P v bits ->
  msim eq (mm_note X msg args) (logm v).
Proof. intros. apply (ms_lift eq (mw_note X msg args) (wlog v)). eapply ws_note; eassumption. Qed.
Lemma ms_fail {A B} (R : A -> B -> Prop) v msg args bits e fmt' args' : good v msg = true -> args <> [] -> fill [] (body v msg) args = Some bits -> Forall (okbit X) bits -> P v bits ->
  fill [] fmt' args' = Some bits -> is_url_error e = true ->
  msim R (mm_fail X msg args e fmt' args') (fail v e).
Proof.
  intros. assert (W : wsim R (mw_fail X msg args e fmt' args') (wfail v e)) by (eapply ws_fail; eassumption). apply ms_lift in W. intros u. specialize (W u).
  unfold mm_fail, mm_note, mm_bind, mm_raise, mm_lift in *. unfold mw_fail, mw_note, mw_bind in W. destruct (noted X ERROR msg args) as [l [a|e0 t]]; exact W.
Qed.
Lemma ms_raise {A B} (R : A -> B -> Prop) fmt args bits : Qs bits -> fill [] fmt args = Some bits -> Forall (okbit X) bits -> msim R (mm_raise X EURLParse fmt args) (raise EURLParse).
Proof.
  intros O F K u. destruct (fill_fine X [] fmt args bits F K) as (m & M1 & M2). unfold mm_raise, raised. rewrite M1. split; [constructor|]. split; [reflexivity|]. cbn [raise fst snd same]. split; [reflexivity|]. right. split; [reflexivity|]. exists m, bits. split; [reflexivity|]. split; [exact O|]. cbn [rev app] in M2. subst m. now apply spells_show.
Qed.

(* actions that neither log nor raise URL errors *)
Definition quiet {A} (m : M A) : Prop := forall u, fst (m u) = [] /\ match snd (snd (m u)) with Ok _ => True | Err e => is_url_error e = false end.
Lemma ms_act {A} (m : M A) : quiet m -> msim eq (act m) m.
Proof. intros H u. destruct (H u) as (H1 & H2). unfold act. destruct (m u) as [l [v [a|e]]]; cbn [fst snd] in *; subst l; repeat split; try constructor. exact H2. Qed.
Lemma q_ret {A} (a : A) : quiet (ret a). Proof. intros u. now split. Qed.
Lemma q_raise {A} e : is_url_error e = false -> quiet (@raise A e). Proof. intros H u. now split. Qed.
Lemma q_get : quiet get. Proof. intros u. now split. Qed.
Lemma q_set f : quiet (modify f). Proof. intros u. now split. Qed.
Lemma q_bind {A B} (m : M A) (f : A -> M B) : quiet m -> (forall a, quiet (f a)) -> quiet (bind m f).
Proof.
  intros H K u. unfold bind. destruct (H u) as (H1 & H2). destruct (m u) as [l [v [a|e]]]; cbn [fst snd] in *; subst l; [|now split]. destruct (K a v) as (K1 & K2). destruct (f a v) as [l [w r]]. cbn [fst snd app] in *. now split.
Qed.
Lemma q_when b m : quiet m -> quiet (when b m). Proof. intros H. destruct b; [exact H|apply q_ret]. Qed.
End Sim.

Lemma F2_impl {A B} (R R' : A -> B -> Prop) l l' : (forall a b, R a b -> R' a b) -> Forall2 R l l' -> Forall2 R' l l'.
Proof. intros H. induction 1; constructor; auto. Qed.
Lemma tells_mono (P P' : verr -> list bit -> Prop) (U U' : verr -> Prop) en v : (forall v b, P v b -> P' v b) -> (forall v, U v -> U' v) -> tells P U en v -> tells P' U' en v.
Proof. intros HP HU (H1 & H2). split; [exact H1|]. destruct (e_text en); [|now apply HU]. destruct H2 as (b & m & A & B). exists b, m. auto. Qed.
Lemma wsim_weak {A B} (P P' : verr -> list bit -> Prop) (U U' : verr -> Prop) Q (R : A -> B -> Prop) m p : (forall v b, P v b -> P' v b) -> (forall v, U v -> U' v) -> wsim P U Q R m p -> wsim P' U' Q R m p.
Proof.
  intros HP HU (H1 & H2). split; [eapply F2_impl; [|exact H1]; intros a b; now apply tells_mono|]. destruct (snd m), (snd p); cbn [same] in *; auto. destruct H2 as (-> & [K|K]); split; auto; [left|now right].
  destruct text; [|exact K]. destruct K as (K0 & l0 & v & bits & m0 & K1 & K2 & K3). split; [exact K0|]. exists l0, v, bits, m0. auto.
Qed.

(* ---------- actions without log call ---------- *)
Ltac quiet := repeat first [apply q_ret | apply q_get | apply q_set | (apply q_raise; reflexivity) | apply q_when | (apply q_bind; [|intros ?])
  | match goal with |- quiet (if ?b then _ else _) => destruct b end | match goal with |- quiet (match ?x with _ => _ end) => destruct x end].
Lemma q_append s : quiet (path_append s). Proof. unfold path_append. quiet. Qed.
Lemma q_shorten : quiet shorten_path. Proof. unfold shorten_path. quiet. Qed.
Lemma q_fragment x : quiet (fragment_append x). Proof. unfold fragment_append. quiet. Qed.
Lemma q_extend x : quiet (path_extend x). Proof. unfold path_extend. quiet. Qed.
Lemma q_flush c b : quiet (path_flush c b).
Proof. unfold path_flush. apply q_bind; [apply q_get|]. intros u. cbv zeta. quiet; try apply q_append; apply q_shorten. Qed.
Lemma q_query E e b : quiet (query_flush E e b).
Proof. unfold query_flush, query_append. quiet. Qed.
