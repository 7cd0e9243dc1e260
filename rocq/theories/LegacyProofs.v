(** Statement-level form of the legacy-encoding result (C12). *)
From Coq Require Import Ascii String.
From Coq Require Import NArith ZArith Bool Arith Lia ZifyBool ZifyN ZifyNat List.
From Verif Require Import PyStr PyInt Codec SpecText Lemmas CodecProofs QuoteProofs PyIntProofs.
Import ListNotations.
Open Scope N_scope.

(** One character [c] of the input becomes [piece]: its encoded bytes, each
    escaped or kept; or the escaped "&#N;" if the codec has no encoding for it. *)
Definition legacy_piece (enc : N -> option (list N)) (safe : list N) (plus : bool)
    (c : N) (piece : list N) : Prop :=
  match enc c with
  | Some b => exists outs, Forall2 (std_escape_byte (kept safe) plus) b outs /\ piece = concat outs
  | None => exists ds, shortest_in_base 10 c ds /\ piece = $"%26%23" ++ ds ++ $"%3B"
  end.

Lemma legacy_char_piece enc safe plus c : ascii_compatible enc ->
  legacy_piece enc safe plus c (legacy_char enc safe plus c).
Proof.
  intros [A1 A2]. unfold legacy_piece, legacy_char. destruct (enc c) as [b|] eqn:E.
  - exists (map (enc_b plus safe) b). split; [|now rewrite flat_map_concat_map].
    assert (Hb : is_bytes b).
    { destruct (c <? 128) eqn:L.
      - rewrite A1 in E by lia. apply Some_inj in E; subst. repeat constructor; lia.
      - now destruct (A2 c b ltac:(lia) E). }
    clear E. induction Hb; cbn; constructor; auto. now apply enc_b_std.
  - exists (dec_str c). split; [apply dec_str_spec|reflexivity].
Qed.

Lemma legacy_spec enc s safe plus : ascii_compatible enc -> is_pystr s ->
  exists pieces, string_percent_encode enc s safe plus = Some (concat pieces)
    /\ Forall2 (legacy_piece enc safe plus) (scalar_value_string s) pieces
    /\ Forall (fun c => c < 128) (concat pieces).
Proof.
  intros HA Hs. exists (map (legacy_char enc safe plus) (scalar_value_string s)).
  rewrite <- flat_map_concat_map. split; [|split].
  - rewrite legacy_encode by auto. now rewrite usv_spec.
  - induction (scalar_value_string s); cbn; constructor; auto. now apply legacy_char_piece.
  - now apply legacy_ascii.
Qed.

(** ISO-8859-1 as a codec. *)
Definition latin1 (c : N) : option (list N) := if c <? 256 then Some [c] else None.
Lemma latin1_ok : ascii_compatible latin1.
Proof.
  unfold latin1. split.
  - intros c H. now replace (c <? 256) with true by lia.
  - intros c b H. destruct (c <? 256) eqn:Q; [|discriminate]. intros E. apply Some_inj in E; subst b.
    repeat split; [repeat constructor; lia|intros [?|[]]; lia|discriminate].
Qed.
Lemma utf8_compatible_ascii : ascii_compatible (fun c => if c <=? 1114111 then utf8_enc1 c else None).
Proof.
  split.
  - intros c H. replace (c <=? 1114111) with true by lia.
    destruct (enc1_split c) as [E|[[_ E]|[? _]]]; auto; [|lia].
    unfold utf8_enc1 in E. replace (is_surrogate c) with false in E by (unfold is_surrogate; lia).
    replace (c <? 128) with true in E by lia. discriminate.
  - intros c b H E. destruct (c <=? 1114111) eqn:L; [|discriminate].
    assert (Hlo : forallb (fun x => 128 <=? x) b = true).
    { destruct (enc1_split c) as [E'|[[? _]|[_ (b' & E' & F)]]]; [congruence|lia|].
      rewrite E in E'. apply Some_inj in E'. now subst. }
    rewrite forallb_forall in Hlo.
    repeat split.
    + apply Forall_forall. intros x Hx. eapply is_cont_byte; eauto. lia.
    + intros I. apply Hlo in I. lia.
    + intros t ->. assert (I : In 38 (38 :: 35 :: t)) by now left. apply Hlo in I. lia.
Qed.
