(** URLValidator.is_valid_url_scheme on all strings, and the table of registered schemes (C141). *)
From Coq Require Import Ascii String.
From Coq Require Import NArith ZArith Bool Arith Lia ZifyBool ZifyN ZifyNat List.
From Verif Require Import PyStr PyInt Codec Env HostModel UrlRecord Parser Lemmas QuoteProofs IPv4Proofs HostProofs StandardProofs SpecPyInt IntGrammar SpecIPv6 IPv6Grammar
  HostStandard UrlProps WfProofs WritingProofs WritingStandard Schemes Validators ValidatorProofs ValidityProofs WritingValid SpecText SpecHost SpecUrl SpecParser SpecReports SpecHostReports SpecWriting.
Import ListNotations.
Open Scope N_scope.

Lemma registered_good : forallb (fun s => std_scheme s && str_eqb (std_lower s) s) REGISTERED_SCHEMES = true.
Proof. vm_compute. reflexivity. Qed.
Lemma registered_std s : In s REGISTERED_SCHEMES -> std_scheme s = true /\ std_lower s = s.
Proof.
  intros H. pose proof registered_good as R. rewrite forallb_forall in R. specialize (R s H). cbv beta in R. apply andb_true_iff in R as [R1 R2]. split; [exact R1|now apply str_eqb_eq].
Qed.
Lemma lower_std s : lower s = std_lower s.
Proof. reflexivity. Qed.
Lemma valid_scheme E s v : fst (is_valid_url_scheme E s v) = true <-> In (py_lower E s) REGISTERED_SCHEMES.
Proof.
  unfold is_valid_url_scheme. cbv zeta. destruct (negb (length (py_lower E s) =? 0)%nat && str_in (py_lower E s) REGISTERED_SCHEMES) eqn:Q; cbn [fst].
  - apply andb_true_iff in Q as [_ Q]. apply str_in_In in Q. tauto.
  - split; [discriminate|]. intros K. exfalso. apply andb_false_iff in Q as [Q|Q].
    + apply registered_lower_In in K as (_ & K & _). destruct (py_lower E s); [congruence|discriminate].
    + apply str_in_In in K. congruence.
Qed.
Lemma py_lower_app E a b : py_lower E (a ++ b) = py_lower E a ++ py_lower E b.
Proof. unfold py_lower. apply flat_map_app. Qed.
Lemma lower_outside E s : (forall c, 128 <= c -> exists d, In d (uni_lower E c) /\ 128 <= d) -> ascii_str (py_lower E s) -> ascii_str s.
Proof.
  intros H A. apply Forall_forall. intros c Hc. destruct (c <? 128) eqn:L; [lia|]. exfalso. apply in_split in Hc as (a & b & ->). rewrite py_lower_app in A. apply Forall_app in A as [_ A].
  unfold py_lower in A. cbn [flat_map] in A. rewrite L in A. apply Forall_app in A as [A _]. destruct (H c ltac:(lia)) as (d & I0 & D). rewrite Forall_forall in A. specialize (A d I0). cbv beta in A. lia.
Qed.
Lemma scheme_iff E s v : (forall c, 128 <= c -> exists d, In d (uni_lower E c) /\ 128 <= d) \/ ascii_str s ->
  (fst (is_valid_url_scheme E s v) = true <-> std_scheme s = true /\ In (std_lower s) REGISTERED_SCHEMES).
Proof.
  intros H. rewrite valid_scheme. assert (K : ascii_str s -> py_lower E s = std_lower s) by (intros A; rewrite py_lower_ascii by exact A; reflexivity).
  split.
  - intros R. assert (A : ascii_str s) by (destruct H as [H|H]; [|exact H]; apply (lower_outside E s H); apply registered_lower_In in R; tauto).
    rewrite (K A) in R. split; [|exact R]. apply registered_std in R as (R & L). assert (X : std_lower (std_lower s) = std_lower s) by exact L.
    exact (std_lower_scheme (std_lower s) s R X).
  - intros (S1 & R). rewrite K; [exact R|]. apply Forall_forall. intros c Hc. destruct s as [|x t]; [destruct Hc|]. cbn [std_scheme] in S1. apply andb_true_iff in S1 as [S1 S2].
    rewrite forallb_forall in S2. unfold std_alpha, std_scheme_char, std_alpha, std_digit in *. destruct Hc as [<-|Hc]; [lia|]. specialize (S2 c Hc). cbv beta in S2. lia.
Qed.
(** every registered scheme that is not special makes a valid URL *)
Lemma registered_url E sch enc v : limit_ok E -> idna_ok E -> normalize_encoding E enc = $"utf-8" -> In sch REGISTERED_SCHEMES -> ~ std_special sch ->
  fst (url_is_valid E (sch ++ [58]) BNone enc v) = Ok true.
Proof.
  intros HL HI HE R NS. destruct (registered_std sch R) as (S1 & L). assert (EO : enc_ok E (normalize_encoding E enc)) by (rewrite HE; now left).
  assert (CH : forall c, In c (sch ++ [58]) -> 33 <= c < 123).
  { intros c Hc. apply in_app_iff in Hc as [Hc|[<-|[]]]; [|lia]. destruct sch as [|x t]; [destruct Hc|]. cbn [std_scheme] in S1. apply andb_true_iff in S1 as [S1 S2].
    rewrite forallb_forall in S2. unfold std_alpha, std_scheme_char, std_alpha, std_digit in *. destruct Hc as [<-|Hc]; [lia|]. specialize (S2 c Hc). cbv beta in S2. lia. }
  assert (SC : scalar_string (sch ++ [58])).
  { split; apply Forall_forall; intros c Hc; specialize (CH c Hc); [lia|unfold surrogate; lia]. }
  apply (url_valid_spec E _ BNone enc v EO (proj1 SC) I). set (E1 := with_validity E true).
  assert (HI1 : idna_ok E1) by (destruct HI as [A1 A2]; constructor; [exact A1|exact A2]).
  destruct (valid_silent E1 (sch ++ [58]) None enc HL HE I HI1 SC) as (_ & X).
  - exists (sch ++ [58]), []. split; [now rewrite app_nil_r|]. split; [now left|]. left. exists sch, [], []. split; [reflexivity|]. split; [exact S1|]. split; [now left|].
    right; right. rewrite L. split; [exact NS|]. right; right. split; [split; [apply ps_last, uu_nil|intros t Q; discriminate Q]|]. intros _ a t Q. destruct a; discriminate Q.
  - destruct X as (u & X).
    + intros a p b Q D. assert (P : p = []).
      { destruct p as [|x p]; [reflexivity|]. exfalso. assert (K : exists a', a = sch ++ [58] ++ a' \/ (a = sch /\ x :: p ++ b = [])).
        { assert (N0 : ~ In 58 sch).
          { intros C. destruct sch as [|y t]; [destruct C|]. cbn [std_scheme] in S1. apply andb_true_iff in S1 as [S1 S2]. rewrite forallb_forall in S2.
            unfold std_alpha, std_scheme_char, std_alpha, std_digit in *. destruct C as [->|C]; [lia|]. specialize (S2 58 C). cbv beta in S2. lia. }
          clear - Q N0. revert a Q. induction sch as [|y t IH]; intros a Q.
          - destruct a as [|z a]; [exists []; right; split; [reflexivity|]; injection Q as Q; now rewrite Q|]. cbn [app] in Q. injection Q as <- Q. symmetry in Q. apply app_eq_nil in Q as [_ Q]. discriminate Q.
          - destruct a as [|z a]; [cbn [app] in Q; injection Q as -> _; exfalso; apply N0; now left|]. cbn [app] in Q. injection Q as <- Q.
            destruct (IH (fun C => N0 (or_intror C)) a Q) as (a' & [->|(-> & K)]); [exists a'; left; reflexivity|exists []; right; split; [reflexivity|exact K]]. }
        destruct K as (a' & [->|(_ & K)]); [|discriminate K]. apply (f_equal (@length N)) in Q. rewrite !app_length in Q. cbn [length] in Q. rewrite app_length in Q. cbn [length] in Q. lia. }
      subst p. unfold short_for. destruct (int_limit E1); [cbn [length]; lia|exact I].
    + exists u. rewrite parse_url_none'. split; [exact X|]. pose proof (scheme_stored E1 sch [] BNone enc u EO I S1) as Y. change (sch ++ $":" ++ []) with (sch ++ [58]) in Y. rewrite parse_url_none', X in Y.
      specialize (Y eq_refl). rewrite Y, L. exact R.
Qed.
Fixpoint distinct (l : list str) : bool := match l with x :: t => negb (str_in x t) && distinct t | [] => true end.
Lemma distinct_nodup l : distinct l = true -> NoDup l.
Proof.
  induction l as [|x t IH]; cbn [distinct]; intros H; constructor; apply andb_true_iff in H as [H1 H2]; [|now apply IH]. intros K. apply str_in_In in K. rewrite K in H1. discriminate H1.
Qed.
Lemma registered_nodup : NoDup REGISTERED_SCHEMES.
Proof. apply distinct_nodup. vm_compute. reflexivity. Qed.
Lemma special_registered sch : std_special sch -> In sch REGISTERED_SCHEMES.
Proof.
  intros H. apply str_in_In. unfold std_special in H. revert H. cbn [In]. intros H. repeat (destruct H as [<-|H]; [vm_compute; reflexivity|]). destruct H.
Qed.
