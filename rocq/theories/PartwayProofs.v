(** The exact form of C47 and C48: which assignments raise after changing the object,
    and which objects break the invariant of the standard. *)
From Coq Require Import Ascii String.
From Coq Require Import NArith ZArith Bool Arith Lia ZifyBool ZifyN ZifyNat List.
From Verif Require Import PyStr PyInt Codec Env HostModel UrlRecord Parser FlatParser SearchParams UrlApi Schemes.
From Verif Require Import Lemmas PyIntProofs IPv4Proofs HostProofs LoopProofs FlatProofs WfProofs SetterProofs LooseProofs UrlProps ApiProofs ObjProofs CanonProofs.
From Verif Require Import SpecText SpecHost SpecUrl SpecApi SpecPartway.
Import ListNotations.
Open Scope N_scope.

Lemma scan_part sp s : forall br a r, host_scan sp br s = (a, 58 :: r) <-> s = a ++ 58 :: r /\ host_part sp br a = true.
Proof.
  assert (EA : forall c, ends_auth sp c = (c =? 47) || (c =? 63) || (c =? 35) || (sp && (c =? 92))).
  { intros c. unfold ends_auth. f_equal. change (mem c $"/?#") with ((c =? 47) || ((c =? 63) || ((c =? 35) || false))). now rewrite orb_false_r, orb_assoc. }
  induction s as [|c t IH]; intros br a r.
  - cbn [host_scan]. split; [discriminate|]. intros [H _]. destruct a; discriminate.
  - cbn [host_scan]. rewrite EA. set (en := (c =? 47) || (c =? 63) || (c =? 35) || (sp && (c =? 92))).
    destruct (((c =? 58) && negb br) || en) eqn:K.
    + split.
      * intros H. injection H as <- -> <-. split; [reflexivity|]. cbn [host_part]. destruct br; [|reflexivity].
        cbn [negb] in K. rewrite andb_false_r in K. cbn [orb] in K. unfold en in K. destruct sp; discriminate.
      * intros [H P]. destruct a as [|x a].
        -- injection H as -> ->. reflexivity.
        -- injection H as <- ->. cbn [host_part] in P. fold en in P. apply andb_true_iff in P as [P _]. apply andb_true_iff in P as [P Q].
           rewrite negb_true_iff in P. rewrite P, orb_false_r in K. apply andb_true_iff in K as [K1 K2]. rewrite K1 in Q. destruct br; discriminate.
    + specialize (IH (if c =? 91 then true else if c =? 93 then false else br)). destruct (host_scan sp _ t) as [b q]. split.
      * intros H. injection H as <- ->. destruct (proj1 (IH b r) eq_refl) as [-> P]. split; [reflexivity|]. cbn [host_part]. fold en. rewrite P.
        apply orb_false_iff in K as [K1 K2]. rewrite K2. destruct (c =? 58), br; try discriminate; reflexivity.
      * intros [H P]. destruct a as [|x a].
        -- injection H as -> ->. cbn [host_part] in P. rewrite P in K. discriminate.
        -- injection H as <- ->. cbn [host_part] in P. apply andb_true_iff in P as [_ P]. pose proof (proj2 (IH a r) (conj eq_refl P)) as X. injection X as -> ->. reflexivity.
Qed.
Lemma radix_digits d : forall a v, std_radix_value 10 d a = Some v -> forallb (fun c => mem c ASCII_DIGITS) d = true.
Proof.
  induction d as [|c d IH]; [reflexivity|]. intros a v H. cbn [forallb std_radix_value] in *. destruct (std_radix_digit 10 c) as [x|] eqn:D; [|discriminate].
  rewrite (IH _ _ H), andb_true_r. apply digit_mem. unfold std_radix_digit, std_hex in D. unfold std_digit.
  repeat match type of D with context[if ?b then _ else _] => destruct b eqn:?; try discriminate end; try lia.
Qed.
Lemma bad_refused E sch d : bad_port_text E d -> exists e, flat_port E sch d = Err e.
Proof.
  intros (NE & v & V & B). pose proof (radix_digits d _ _ V) as F. unfold flat_port. rewrite F. destruct d as [|c d]; [congruence|].
  unfold e_int. rewrite (py_int_digits_eq (int_limit E) (uni_decimal E) (uni_space E) 10 (c :: d) v) by (auto; discriminate).
  cbn [N.eqb Pos.eqb andb]. destruct (match int_limit E with Some l => l <? N.of_nat (length (c :: d)) | None => false end) eqn:L; [eauto|].
  cbv zeta. rewrite N2Z.id. destruct B as [B|(l & Hl & B)].
  - apply N.ltb_lt in B. rewrite B. eauto.
  - rewrite Hl in L. apply N.ltb_lt in B. congruence.
Qed.
Lemma put_port_refused E u d r : bad_port_text E d -> (forall c r', r = c :: r' -> std_digit c = false) ->
  exists e, put_port E u (d ++ r) = (u, Err e).
Proof.
  intros B R. unfold put_port. assert (SP : span (fun c => mem c ASCII_DIGITS) (d ++ r) = (d, r)).
  { destruct B as (_ & v & V & _). apply radix_digits in V. revert V. clear - R. induction d as [|c d IH]; cbn [app forallb]; intros V.
    - destruct r as [|c r]; [reflexivity|]. cbn [span]. specialize (R c r eq_refl). destruct (mem c ASCII_DIGITS) eqn:M; [|reflexivity].
      apply mem_In in M. vm_compute in M. unfold std_digit in R. lia.
    - apply andb_true_iff in V as [V1 V2]. cbn [span]. now rewrite V1, (IH V2). }
  rewrite SP. cbn [fst]. destruct (bad_refused E (scheme u) d B) as [e ->]. eauto.
Qed.

(** C47, exactly *)
Lemma host_set_eta u h : uhost u = Some h -> set_host (Some h) u = u.
Proof. destruct u. intros H. cbn in H. unfold set_host. cbn. now rewrite H. Qed.
Lemma host_raise E o v : ~ std_opaque (o_url o) -> scheme (o_url o) <> $"file" -> forall a d r h,
  refused_port E (is_special (o_url o)) (std_strip_tabs v) a d r -> snd (host_parse (EE E) a (is_not_special (o_url o))) = Ok h ->
  exists e, set_attr E (SetHost v) o = (mkobj (set_host (Some h) (o_url o)) (o_list o), Err e).
Proof.
  intros NO NF a d r h (T & A & HP & B & R) HH. unfold set_attr. cbv zeta. destruct (has_opaque_path (o_url o)) eqn:O; [now apply opaque_spec in O|].
  rewrite reparse_host. unfold put_host. destruct (str_eqb (scheme (o_url o)) _) eqn:F; [now apply str_eqb_eq in F|]. rewrite strip_tabs_std.
  rewrite (proj2 (scan_part _ _ false a (d ++ r)) (conj T HP)). cbn [cur isc]. rewrite N.eqb_refl. destruct a as [|c a]; [congruence|].
  cbn [length Nat.eqb is_hostname_override tl]. rewrite HH. destruct (put_port_refused (EE E) (set_host (Some h) (o_url o)) d r B R) as [e ->].
  exists e. reflexivity.
Qed.
Lemma raise_exactly E s o :
  (exists e, snd (set_attr E s o) = Err e) /\ fst (set_attr E s o) <> o <->
  exists v a d r h, s = SetHost v /\ ~ std_opaque (o_url o) /\ scheme (o_url o) <> $"file" /\
    refused_port E (is_special (o_url o)) (std_strip_tabs v) a d r /\
    snd (host_parse (EE E) a (is_not_special (o_url o))) = Ok h /\ uhost (o_url o) <> Some h.
Proof.
  split.
  - intros [[e H] D]. destruct (setter_raise E s o e H) as [X|(v & h0 & a0 & d0 & r0 & -> & _)]; [now destruct D|].
    assert (R : mkobj (o_url o) (o_list o) = o) by apply obj_eta.
    unfold set_attr in H, D. cbv zeta in H, D. destruct (has_opaque_path (o_url o)) eqn:O; [discriminate|].
    rewrite reparse_host in H, D. unfold with_url in H, D. cbn [fst snd] in H, D. unfold put_host in H, D.
    destruct (str_eqb (scheme (o_url o)) _) eqn:F.
    { exfalso. unfold put_file_host in H, D. destruct (fst (span _ _)); [discriminate|]. destruct (snd (host_parse _ _ _)); [discriminate|now destruct D]. }
    rewrite strip_tabs_std in H, D. destruct (host_scan (is_special (o_url o)) false (std_strip_tabs v)) as [b q] eqn:HS.
    destruct (isc (cur q) 58) eqn:I5.
    + destruct q as [|c q]; [discriminate|]. cbn [cur isc] in I5. apply N.eqb_eq in I5 as ->. apply scan_part in HS as [T HP].
      destruct (length b =? 0)%nat eqn:L; [now destruct D|]. cbn [is_hostname_override] in H, D. destruct (snd (host_parse _ b _)) as [x|e2] eqn:HH; [|now destruct D].
      cbn [tl] in H, D. apply put_port_err in H as (H1 & d & r & H2 & H3 & H4). rewrite H1 in D.
      exists v, b, d, r, x. split; [reflexivity|]. split; [intros X; apply opaque_spec in X; congruence|]. split; [intros X; rewrite X in F; discriminate|].
      split; [|split; [exact HH|]].
      * split; [now rewrite <- H2|]. split; [intros ->; discriminate|]. split; [exact HP|]. split; [exact H3|exact H4].
      * intros X. rewrite (host_set_eta _ _ X) in D. now destruct D.
    + exfalso. destruct (_ && is_special _); [now destruct D|]. destruct (_ && _); [discriminate|]. destruct (snd (host_parse _ _ _)); [discriminate|now destruct D].
  - intros (v & a & d & r & h & -> & NO & NF & RP & HH & NE). destruct (host_raise E o v NO NF a d r h RP HH) as [e ->]. cbn [fst snd].
    split; [eauto|]. intros X. apply NE. rewrite <- X at 1. destruct (o_url o). reflexivity.
Qed.

(** C48, exactly *)
Lemma invariant_exactly E o : reached E o -> (url_invariant (o_url o) <-> ~ stray_port (o_url o)).
Proof.
  intros R. destruct (reached_invariant E o R) as [W V]. set (u := o_url o) in *. split.
  - intros H (P & A). destruct (inv_creds _ H) as (B1 & B2 & B3); [now right; right|]. destruct A as [A|[A|A]]; contradiction.
  - intros H. destruct V as [V1 V2 V3 V4 V5 V6 V7]. destruct u as [sc us pw ho po pa qu fr] eqn:U. unfold set_port in *. cbn in *.
    constructor; cbn; auto.
    + intros C. destruct po as [p|]; [|exact (V6 C)]. unfold stray_port, std_no_authority in H. cbn in H.
      repeat split; intros X; apply H; (split; [discriminate|tauto]).
    + intros p ->. destruct (N.eq_dec p 0) as [->|NP]; [discriminate|]. cbn in W. apply (inv_port _ (W ltac:(congruence)) p). reflexivity.
Qed.
