(** URLValidator.is_valid and the grammar of SpecWriting.v. *)
From Coq Require Import Ascii String.
From Coq Require Import NArith ZArith Bool Arith Lia ZifyBool ZifyN ZifyNat List.
From Verif Require Import PyStr PyInt Codec Env Schemes HostModel UrlRecord Parser Validators Lemmas IPv4Proofs HostProofs WfProofs StandardProofs SpecPyInt IntGrammar
  SpecIPv6 IPv6Grammar HostStandard UrlProps ParserProofs ValidityProofs WritingProofs WritingStandard SpecText SpecHost SpecUrl SpecParser SpecReports SpecHostReports SpecWriting.
Import ListNotations.
Open Scope N_scope.

Lemma parse_url_none' E s enc : parse_url E s BNone enc = parse_new E s None enc.
Proof. unfold parse_url, wbind, wret. destruct (parse_new E s None enc). reflexivity. Qed.
Theorem is_valid_grammar E s enc v : limit_ok E -> normalize_encoding E enc = $"utf-8" -> keeps_forbidden (code_to_ascii E) -> scalar_string s ->
  let E1 := with_validity E true in
  (fst (url_is_valid E s BNone enc v) = Ok true <->
   url_string false (fun h => domain_chars true h /\ fst (host_parse E1 h false) = []) (fun a => exists x, code_v6_text a x) None s /\
   (exists sch t, s = sch ++ 58 :: t /\ std_scheme sch = true /\ In (std_lower sch) REGISTERED_SCHEMES) /\
   snd (parse_new E1 s None enc) <> Err EValue).
Proof.
  intros HL HE HK HS E1. assert (EO : enc_ok E (normalize_encoding E enc)) by (rewrite HE; now left).
  rewrite (url_valid_spec E s BNone enc v EO (proj1 HS) I). fold E1.
  pose proof (silent_iff E1 s None enc HL HE I HK HS) as SI.
  assert (SC : forall sch t u, s = sch ++ 58 :: t -> std_scheme sch = true -> snd (parse_new E1 s None enc) = Ok u -> scheme u = std_lower sch).
  { intros sch t u -> Q P. rewrite <- parse_url_none in P. exact (scheme_stored E1 sch t BNone enc u EO I Q P). }
  rewrite parse_url_none'. split.
  - intros (u & P & R). assert (X : exists u, parse_new E1 s None enc = ([], Ok u)) by eauto. apply SI in X as [G NE].
    split; [exact G|]. split; [|exact NE]. destruct G as (r & f & Q & _ & [(sch & r' & q & Q' & S1 & _)|(b & F & _)]); [|discriminate F].
    exists sch, (r' ++ q ++ f). assert (Q2 : s = sch ++ 58 :: r' ++ q ++ f) by (rewrite Q, Q'; rewrite <- !app_assoc; reflexivity).
    split; [exact Q2|]. split; [exact S1|]. rewrite <- (SC sch (r' ++ q ++ f) u Q2 S1); [exact R|now rewrite P].
  - intros (G & (sch & t & Q & S1 & R) & NE). destruct (proj2 SI (conj G NE)) as [u P]. exists u. split; [exact P|].
    rewrite (SC sch t u Q S1); [exact R|now rewrite P].
Qed.
