(** The bound of SpecLength.v. *)
From Coq Require Import Ascii String.
From Coq Require Import NArith ZArith Bool Arith Lia ZifyBool ZifyN ZifyNat List.
From Verif Require Import PyStr PyInt Codec Env HostModel UrlRecord Parser SpecText SpecHost FlatParser.
From Verif Require Import Lemmas CodecProofs QuoteProofs PyIntProofs LegacyProofs IPv4Proofs IPv6Proofs HostProofs LoopProofs FlatProofs WfProofs RoundTrip UrlProps SizeProofs SpecUrl SpecLength.
Import ListNotations.
Open Scope nat_scope.

Lemma clean_len s : length (clean s) <= length s.
Proof.
  unfold clean, remove_tabs, strip_c0, rstrip_by.
  assert (F : forall p (l : str), length (filter p l) <= length l) by (intros p l; induction l as [|c l IH]; cbn [filter length]; [lia|destruct (p c); cbn [length]; lia]).
  assert (D : forall p (l : str), length (drop_while p l) <= length l) by (intros p l; induction l as [|c l IH]; cbn [drop_while length]; [lia|destruct (p c); cbn [length]; lia]).
  eapply Nat.le_trans; [apply F|]. rewrite rev_length. eapply Nat.le_trans; [apply D|]. rewrite rev_length. apply D.
Qed.

(* ---------- the query ---------- *)
Lemma query_utf8 E u q x : is_pystr q -> enc_query E $"utf-8" u q = Some x -> length x <= 12 * length q.
Proof.
  intros H Q. unfold enc_query in Q. replace (query_encoding u $"utf-8") with $"utf-8" in Q by reflexivity. unfold enc_of in Q. replace (str_eqb $"utf-8" $"utf-8") with true in Q by reflexivity.
  pose proof (enc_len q (if is_special u then SAFE_SPECIAL_QUERY else SAFE_QUERY) H) as L. unfold utf8_percent_encode in L. rewrite Q in L. exact L.
Qed.
Lemma query_legacy E enc u q x : ascii_compatible (codec E enc) -> (forall c b, codec E enc c = Some b -> length b <= 5) -> is_pystr q ->
  enc_query E enc u q = Some x -> length x <= 16 * length q.
Proof.
  intros HA HB H Q. unfold enc_query in Q.
  assert (U : enc_of E (query_encoding u enc) = utf8_enc1 \/ enc_of E (query_encoding u enc) = codec E enc).
  { unfold enc_of, query_encoding. destruct (negb _ && _); [now left|]. destruct (str_eqb enc $"utf-8"); auto. }
  set (safe := if is_special u then SAFE_SPECIAL_QUERY else SAFE_QUERY) in *. destruct U as [U|U]; rewrite U in Q.
  - pose proof (enc_len q safe H) as L. unfold utf8_percent_encode in L. rewrite Q in L. lia.
  - rewrite legacy_encode in Q by exact HA. injection Q as <-. rewrite usv_spec by exact H. pose proof (svs_len q) as L. pose proof (svs_le q H) as P. unfold is_pystr in P. rewrite Forall_forall in P.
    eapply Nat.le_trans; [apply (flat_map_len _ 16)|lia]. intros c Hc. unfold legacy_char. destruct (codec E enc c) as [b|] eqn:C.
    + specialize (HB c b C). pose proof (flat_map_len (enc_b false safe) 3 b (fun x _ => enc_b_len _ _ _)). lia.
    + rewrite !app_length. change (length $"%26%23") with 6. change (length $"%3B") with 3. pose proof (dec_str_len c 7) as D. specialize (P c Hc). cbv beta in P. change (10 ^ N.of_nat 7)%N with 10000000%N in D. lia.
Qed.

(* ---------- from records to strings ---------- *)
Lemma href_size P u : wf P u -> length (href u) <= size u + length (serialize_host u) + 11.
Proof.
  intros W. pose proof (inv_port u (wf_invariant P u W)) as IP. unfold href, serialize_url, size, serialize_host, serialize_path. rewrite !app_length. change (length $":") with 1.
  assert (PS : length (match path u with POpaque s => s | PList segs => serialize_segs segs end) = path_size (path u)) by (destruct (path u); reflexivity). rewrite PS.
  assert (Q : length (match query u with Some q => $"?" ++ q | None => [] end) = opt_size (query u)) by (destruct (query u); reflexivity). rewrite Q.
  assert (F : length (match fragment u with Some f => $"#" ++ f | None => [] end) = opt_size (fragment u)) by (destruct (fragment u); reflexivity). rewrite F.
  assert (PO : length (match port u with Some p => $":" ++ dec_str p | None => [] end) <= 6).
  { destruct (port u) as [p|]; [|cbn [length]; lia]. specialize (IP p eq_refl). rewrite app_length. change (length $":") with 1. pose proof (dec_str_len p 5) as D. change (10 ^ N.of_nat 5)%N with 100000%N in D. lia. }
  assert (D : length (match uhost u, path u with None, PList ([] :: _ :: _) => $"/." | _, _ => [] end) <= (match uhost u with None => 2 | Some _ => 0 end)).
  { destruct (uhost u); [cbn [length]; lia|]. destruct (path u) as [s|[|[|? ?] [|? ?]]]; cbn [length]; try lia. exact (le_n 2). }
  destruct (uhost u) as [h|]; [|cbn [length]; lia]. rewrite !app_length. change (length $"//") with 2.
  assert (C : length (if includes_credentials u then username u ++ match password u with [] => [] | p => $":" ++ p end ++ $"@" else []) <= length (username u) + length (password u) + 2).
  { destruct (includes_credentials u); [|cbn [length]; lia]. rewrite !app_length. change (length $"@") with 1. destruct (password u); [cbn [length]; lia|]. rewrite app_length. change (length $":") with 1. lia. }
  lia.
Qed.
Lemma size_href P u : wf P u -> size u <= length (href u).
Proof.
  intros W. pose proof (inv_creds u (wf_invariant P u W)) as IC. unfold href, serialize_url, size, serialize_path. rewrite !app_length.
  assert (PS : length (match path u with POpaque s => s | PList segs => serialize_segs segs end) = path_size (path u)) by (destruct (path u); reflexivity). rewrite PS.
  assert (Q : length (match query u with Some q => $"?" ++ q | None => [] end) = opt_size (query u)) by (destruct (query u); reflexivity). rewrite Q.
  assert (F : length (match fragment u with Some f => $"#" ++ f | None => [] end) = opt_size (fragment u)) by (destruct (fragment u); reflexivity). rewrite F.
  destruct (uhost u) as [h|].
  - rewrite !app_length. unfold includes_credentials. destruct (username u) as [|a us]; destruct (password u) as [|b pw]; cbn [length Nat.eqb negb orb]; rewrite ?app_length; cbn [length]; rewrite ?app_length; cbn [length]; lia.
  - destruct (username u) as [|a us]; [|exfalso; destruct IC as [IC _]; [left; discriminate|now apply IC]]. destruct (password u) as [|b pw]; [|exfalso; destruct IC as [IC _]; [right; left; discriminate|now apply IC]]. cbn [length]. lia.
Qed.

Section Length.
Context (E : env) (enc : str) (k : nat) (K : 12 <= k) (EO : enc_ok E (normalize_encoding E enc))
  (HQ : forall u q x, is_pystr q -> enc_query E (normalize_encoding E enc) u q = Some x -> length x <= k * length q).
Lemma new_size s base v : is_pystr s -> base_ok base -> snd (parse_new E s base enc) = Ok v -> size v <= base_size base + k * length s + 5.
Proof.
  intros H B Q. rewrite parse_new_flat in Q by exact B. unfold flat_parse in Q. apply (sz_main E (normalize_encoding E enc) k K HQ) in Q; [|now apply clean_pystr].
  pose proof (clean_len s). unfold cost in Q. nia.
Qed.
Lemma url_length s base u : is_pystr s -> base_parsed E base -> snd (parse_url E s base enc) = Ok u -> length_bound k s base u.
Proof.
  intros H B Q. assert (W : wf (hostval E) u).
  { apply parsed_wf. destruct base as [|b|b]; cbn [base_parsed] in B; [exact (parsed_none E s enc u H EO Q)|exact (parsed_str E s b enc u H B EO Q)|exact (parsed_rec E s b enc u H B EO Q)]. }
  pose proof (href_size _ u W) as L. unfold length_bound. destruct base as [|b|b]; cbn [base_parsed base_length] in *.
  - rewrite parse_url_none in Q. apply new_size in Q; [|exact H|exact I]. cbn [base_size] in Q. lia.
  - rewrite parse_url_str in Q. destruct (snd (parse_new E b None enc)) as [v|] eqn:V; [|discriminate].
    assert (PV : parsed E v) by (apply (parsed_none E b enc v B EO); rewrite parse_url_none; exact V).
    apply new_size in V; [|exact B|exact I]. apply new_size in Q; [|exact H|now apply parsed_base_ok in PV]. cbn [base_size] in *. lia.
  - rewrite parse_url_rec in Q. apply new_size in Q; [|exact H|now apply parsed_base_ok in B]. cbn [base_size] in Q. pose proof (size_href _ b (parsed_wf E b B)). lia.
Qed.
End Length.

Lemma length_utf8 E s base enc u : normalize_encoding E enc = $"utf-8" -> is_pystr s -> base_parsed E base ->
  snd (parse_url E s base enc) = Ok u -> length_bound 12 s base u.
Proof.
  intros N H B Q. apply (url_length E enc 12 (le_n 12) (or_introl N)); auto. rewrite N. apply query_utf8.
Qed.
Lemma length_legacy E s base enc u : ascii_compatible (codec E (normalize_encoding E enc)) ->
  (forall c b, codec E (normalize_encoding E enc) c = Some b -> length b <= 5) -> is_pystr s -> base_parsed E base ->
  snd (parse_url E s base enc) = Ok u -> length_bound 16 s base u.
Proof.
  intros A C H B Q. assert (K : 12 <= 16) by lia. apply (url_length E enc 16 K (or_intror A)); auto. intros u' q x. now apply query_legacy.
Qed.
Lemma pystr_dec s : forallb (fun c => (c <=? 1114111)%N) s = true -> is_pystr s.
Proof. intros H. apply Forall_forall. intros c Hc. rewrite forallb_forall in H. apply N.leb_le, (H c Hc). Qed.
