(** C97 for other encodings and a base that is a string. *)
From Coq Require Import Ascii String.
From Coq Require Import NArith ZArith Bool Arith Lia List.
From Verif Require Import PyStr PyInt Codec Env HostModel UrlRecord Parser Validators AnyCodec AnyCodecProofs AnyCodecLog.
From Verif Require Import Lemmas EncodingProofs BaseQuery.
Import ListNotations.
Open Scope N_scope.

Lemma plain_query E s base enc u : snd (parse_new E s base enc) = Ok u ->
  exists u', snd (parse_new E s base UTF8) = Ok u' /\ u = set_query (query u) u'.
Proof.
  intros H. rewrite <- new_char in H. pose proof (any_new_ok (fun e => char_codec (codec E e)) E s base enc) as A.
  destruct (any_new _ E s base enc) as [l [[x|w]|e]]; cbn [plain_result snd] in H, A; try discriminate. injection H as ->.
  destruct (snd (parse_new E s base UTF8)) as [u'|e]; [|discriminate]. exists u'. split; [reflexivity|]. unfold recode in A.
  repeat match type of A with context[match ?x with _ => _ end] => destruct x; try discriminate end; injection A as ->; destruct u'; reflexivity.
Qed.

(** the outcome of a call, its log and what is_valid uses of the result *)
Definition brief (r : W urlrec) : list verr * res str := (fst r, match snd r with Ok u => Ok (scheme u) | Err e => Err e end).
Lemma brief_new E s base enc : snd (parse_new E s base enc) <> Err EUnicode -> brief (parse_new E s base enc) = brief (parse_new E s base UTF8).
Proof.
  intros N. unfold brief. pose proof (plain_log E s base enc) as L. pose proof (plain_scheme E s base enc) as S1. pose proof (plain_error E s base enc) as S2.
  destruct (parse_new E s base enc) as [l [u|e]]; cbn [fst snd] in *.
  - destruct (S1 u eq_refl) as (u' & U & Q). specialize (L N). rewrite U, L, Q. reflexivity.
  - assert (NE : e <> EUnicode) by congruence. rewrite (S2 e eq_refl NE), (L N). reflexivity.
Qed.
Lemma brief_base E s b q enc : brief (parse_new E s (Some (set_query q b)) enc) = brief (parse_new E s (Some b) enc).
Proof.
  unfold brief. destruct (base_query E b q s enc) as [L R]. rewrite L. destruct (snd (parse_new E s (Some b) enc)) as [u|e].
  - destruct R as [-> | [_ ->]]; [reflexivity|]. destruct u. reflexivity.
  - now rewrite R.
Qed.
Lemma brief_url E s base enc : snd (parse_url E s base enc) <> Err EUnicode -> brief (parse_url E s base enc) = brief (parse_url E s base UTF8).
Proof.
  intros N. unfold parse_url in *. destruct base as [|t|b]; unfold wbind, wret in *.
  - revert N. pose proof (brief_new E s None enc) as B. destruct (parse_new E s None enc) as [l r], (parse_new E s None UTF8) as [l' r']. exact B.
  - pose proof (brief_new E t None enc) as B1. pose proof (plain_query E t None enc) as Q. pose proof (plain_error E t None enc) as PE.
    destruct (parse_new E t None enc) as [l [u|e]]; cbn [fst snd] in *.
    + destruct (Q u eq_refl) as (u' & U & Qu). specialize (B1 ltac:(discriminate)). destruct (parse_new E t None UTF8) as [l' r']. cbn [snd] in U. subst r'.
      unfold brief in B1. cbn [fst snd] in B1. injection B1 as <- _.
      pose proof (brief_new E s (Some u) enc) as B2. destruct (parse_new E s (Some u) enc) as [l1 r1]. cbn [fst snd app] in *. specialize (B2 N).
      rewrite Qu in B2. rewrite brief_base in B2. destruct (parse_new E s (Some u') UTF8) as [l2 r2]. unfold brief in *. cbn [fst snd] in *. injection B2 as -> B2.
      now rewrite B2.
    + assert (NE : e <> EUnicode) by congruence. specialize (PE e eq_refl NE). specialize (B1 ltac:(congruence)). destruct (parse_new E t None UTF8) as [l' r']. cbn [snd] in PE. subst r'.
      unfold brief in *. cbn [fst snd] in *. injection B1 as ->. reflexivity.
  - revert N. pose proof (brief_new E s (Some b) enc) as B. destruct (parse_new E s (Some b) enc) as [l r], (parse_new E s (Some b) UTF8) as [l' r']. exact B.
Qed.
Lemma valid_any_encoding E s base enc v :
  if match snd (parse_url (with_validity E true) s base enc) with Err EUnicode => true | _ => false end
  then fst (url_is_valid E s base enc v) = Err EUnicode
  else url_is_valid E s base enc v = url_is_valid E s base UTF8 v.
Proof.
  unfold url_is_valid. cbv zeta. set (E1 := with_validity E true). pose proof (brief_url E1 s base enc) as B. unfold brief in B.
  destruct (parse_url E1 s base enc) as [l [u|e]]; cbn [fst snd] in *.
  - specialize (B ltac:(discriminate)). destruct (parse_url E1 s base UTF8) as [l' [u'|e']]; cbn [fst snd] in *; [|discriminate B]. injection B as -> B. now rewrite B.
  - destruct (match e with EUnicode => true | _ => false end) eqn:K; [destruct e; try discriminate K; reflexivity|].
    assert (NE : e <> EUnicode) by (intros ->; discriminate K). specialize (B ltac:(congruence)).
    destruct (parse_url E1 s base UTF8) as [l' [u'|e']]; cbn [fst snd] in *; [discriminate B|]. injection B as -> ->. reflexivity.
Qed.
