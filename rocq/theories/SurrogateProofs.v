(** Congruence of the parser under replacing surrogate pairs by the code points
    that they encode (C43). *)
From Coq Require Import Ascii String.
From Coq Require Import NArith ZArith Bool Arith Lia ZifyBool ZifyN ZifyNat List.
From Verif Require Import PyStr PyInt Codec Env HostModel UrlRecord Parser FlatParser Lemmas HostProofs FlatProofs WfProofs ParserProofs UrlProps SpecPairs.
Import ListNotations.
Open Scope N_scope.

(** the relation with the code point of a pair as a variable *)
Inductive pf : str -> str -> Prop :=
| pf_n : pf [] []
| pf_s c s t : pf s t -> pf (c :: s) (c :: t)
| pf_p h l a s t : 55296 <= h <= 56319 -> 56320 <= l <= 57343 -> a = 65536 + (h - 55296) * 1024 + (l - 56320) ->
    pf s t -> pf (h :: l :: s) (a :: t).
Lemma pf_of s t : pairs_for s t -> pf s t.
Proof. intros H. induction H; [constructor|now constructor|]. apply pf_p; auto. Qed.
Definition hi (p : N -> bool) : Prop := forall c, 55296 <= c -> p c = p 55296.

Lemma pf_refl s : pf s s. Proof. induction s; constructor; auto. Qed.
Lemma pf_nil_l t : pf [] t -> t = []. Proof. intros H. inversion H. reflexivity. Qed.
Lemma pf_nil_r s : pf s [] -> s = []. Proof. intros H. inversion H. reflexivity. Qed.
Lemma pf_app a b c d : pf a b -> pf c d -> pf (a ++ c) (b ++ d).
Proof. intros H G. induction H; [exact G| |]; cbn [app]; constructor; auto. Qed.

Lemma pf_units s t : pf s t -> to_utf16 s = to_utf16 t.
Proof.
  intros H. unfold to_utf16. induction H as [|c s t H IH|h l a s t Hh Hl Ha H IH]; [reflexivity| |].
  - cbn [flat_map]. now rewrite IH.
  - cbn [flat_map]. rewrite IH. unfold utf16_units.
    destruct (N.ltb_spec h 65536); [|lia]. destruct (N.ltb_spec l 65536); [|lia].
    subst a. destruct (N.ltb_spec (65536 + (h - 55296) * 1024 + (l - 56320)) 65536); [lia|].
    replace (65536 + (h - 55296) * 1024 + (l - 56320) - 65536) with ((l - 56320) + (h - 55296) * 1024) by lia.
    rewrite N.div_add, N.mod_add by lia. rewrite N.div_small, N.mod_small by lia. cbn [app].
    replace (55296 + (0 + (h - 55296))) with h by lia. replace (56320 + (l - 56320)) with l by lia. reflexivity.
Qed.
Lemma pf_usv s t : pf s t -> usv s = usv t.
Proof. intros H. unfold usv. now rewrite (pf_units _ _ H). Qed.
Lemma pf_spe enc s t safe plus : pf s t -> string_percent_encode enc s safe plus = string_percent_encode enc t safe plus.
Proof. intros H. unfold string_percent_encode. now rewrite (pf_usv _ _ H). Qed.
Lemma pf_upe s t safe plus : pf s t -> utf8_percent_encode s safe plus = utf8_percent_encode t safe plus.
Proof. intros H. unfold utf8_percent_encode. now rewrite (pf_spe _ _ _ _ _ H). Qed.
Lemma pf_spd s t : pf s t -> string_percent_decode s = string_percent_decode t.
Proof. intros H. unfold string_percent_decode, utf8_encode. now rewrite (pf_usv _ _ H). Qed.

(** predicates that do not distinguish surrogates from astral code points *)
Lemma mem_hi c l : forallb (fun x => x <? 128) l = true -> 55296 <= c -> mem c l = false.
Proof.
  intros H Hc. unfold mem. apply existsb_false. intros x Hx. rewrite forallb_forall in H. specialize (H x Hx). cbv beta in H. lia.
Qed.
Lemma hi_mem l : forallb (fun x => x <? 128) l = true -> hi (fun c => mem c l).
Proof. intros H c Hc. rewrite !mem_hi by (auto; lia). reflexivity. Qed.
Lemma hi_eqb x : x < 128 -> hi (fun c => c =? x). Proof. intros H c Hc. lia. Qed.
Lemma hi_negb p : hi p -> hi (fun c => negb (p c)). Proof. intros H c Hc. now rewrite (H c Hc). Qed.
Lemma hi_orb p q : hi p -> hi q -> hi (fun c => p c || q c). Proof. intros H G c Hc. now rewrite (H c Hc), (G c Hc). Qed.
Lemma hi_andb p q : hi p -> hi q -> hi (fun c => p c && q c). Proof. intros H G c Hc. now rewrite (H c Hc), (G c Hc). Qed.
Lemma hi_const b : hi (fun _ => b). Proof. intros c Hc. reflexivity. Qed.

Ltac his := first [ assumption | apply hi_const | apply hi_eqb; reflexivity | apply hi_mem; reflexivity
                  | apply hi_negb; his | apply hi_orb; his | apply hi_andb; his ].

Lemma hi_c0 : hi is_c0_space. Proof. intros c Hc. unfold is_c0_space. lia. Qed.
Lemma hi_tab : hi is_tab_newline. Proof. intros c Hc. unfold is_tab_newline. lia. Qed.
Lemma hi_qf : hi is_qf. Proof. unfold is_qf. his. Qed.
Lemma hi_slash : hi is_slash. Proof. unfold is_slash. his. Qed.
Lemma hi_ends sp : hi (ends_auth sp). Proof. unfold ends_auth. his. Qed.
Lemma hi_scheme : hi is_scheme_char. Proof. unfold is_scheme_char. his. Qed.

Lemma pf_span p s t : hi p -> pf s t -> pf (fst (span p s)) (fst (span p t)) /\ pf (snd (span p s)) (snd (span p t)).
Proof.
  intros Hp H. induction H as [|c s t H [IH1 IH2]|h l a s t Hh Hl Ha H [IH1 IH2]].
  - split; constructor.
  - cbn [span]. destruct (p c).
    + destruct (span p s), (span p t). cbn [fst snd] in *. split; [constructor|]; auto.
    + split; [constructor|]. cbn [snd]. constructor. auto.
  - cbn [span]. pose proof (Hp a ltac:(lia)) as A.
    rewrite A, (Hp h), (Hp l) by lia. destruct (p 55296).
    + destruct (span p s), (span p t). cbn [fst snd] in *. split; [constructor|]; auto.
    + split; [constructor|]. cbn [snd]. constructor; auto.
Qed.
Lemma pf_drop_while p s t : hi p -> pf s t -> pf (drop_while p s) (drop_while p t).
Proof.
  intros Hp H. induction H as [|c s t H IH|h l a s t Hh Hl Ha H IH].
  - constructor.
  - cbn [drop_while]. destruct (p c); [exact IH|now constructor].
  - cbn [drop_while]. pose proof (Hp a ltac:(lia)) as A.
    rewrite A, (Hp h), (Hp l) by lia. destruct (p 55296); [exact IH|now constructor].
Qed.
Lemma pf_filter p s t : hi p -> pf s t -> pf (filter p s) (filter p t).
Proof.
  intros Hp H. induction H as [|c s t H IH|h l a s t Hh Hl Ha H IH].
  - constructor.
  - cbn [filter]. destruct (p c); [now constructor|exact IH].
  - cbn [filter]. pose proof (Hp a ltac:(lia)) as A.
    rewrite A, (Hp h), (Hp l) by lia. destruct (p 55296); [now constructor|exact IH].
Qed.
Lemma pf_existsb p s t : hi p -> pf s t -> existsb p s = existsb p t.
Proof.
  intros Hp H. induction H as [|c s t H IH|h l a s t Hh Hl Ha H IH]; [reflexivity| |].
  - cbn [existsb]. now rewrite IH.
  - cbn [existsb]. pose proof (Hp a ltac:(lia)) as A.
    rewrite A, (Hp h), (Hp l), IH by lia. now destruct (p 55296).
Qed.
Lemma pf_forallb p s t : hi p -> pf s t -> forallb p s = forallb p t.
Proof.
  intros Hp H. induction H as [|c s t H IH|h l a s t Hh Hl Ha H IH]; [reflexivity| |].
  - cbn [forallb]. now rewrite IH.
  - cbn [forallb]. pose proof (Hp a ltac:(lia)) as A.
    rewrite A, (Hp h), (Hp l), IH by lia. now destruct (p 55296).
Qed.
(** strings that contain only characters of a set without surrogates are unchanged *)
Lemma pf_plain p s t : hi p -> p 55296 = false -> pf s t -> forallb p s = true -> s = t.
Proof.
  intros Hp P H. induction H as [|c s t H IH|h l a s t Hh Hl Ha H IH]; intros F; [reflexivity| |].
  - cbn [forallb] in F. apply andb_true_iff in F as [_ F]. now rewrite (IH F).
  - cbn [forallb] in F. rewrite (Hp h), P in F by lia. discriminate.
Qed.

Lemma rstrip_cons p c s : rstrip_by p (c :: s) = match rstrip_by p s with [] => if p c then [] else [c] | r => c :: r end.
Proof.
  unfold rstrip_by. cbn [rev]. destruct (existsb (fun c => negb (p c)) (rev s)) eqn:X.
  - rewrite drop_stop by auto. rewrite rev_app_distr. cbn [rev app].
    destruct (rev (drop_while p (rev s))) eqn:Q; [|reflexivity]. exfalso.
    apply (f_equal (@rev N)) in Q. rewrite rev_involutive in Q. cbn [rev] in Q.
    apply existsb_exists in X as (x & Hx & Px). clear - Q Hx Px. induction (rev s) as [|y l IH]; [destruct Hx|].
    cbn [drop_while] in Q. destruct (p y) eqn:Y; [|discriminate]. destruct Hx as [->|Hx]; [|auto]. now rewrite Y in Px.
  - assert (A : forallb p (rev s) = true).
    { apply forallb_forall. intros x Hx. rewrite existsb_false in X. specialize (X x Hx). cbv beta in X. now destruct (p x). }
    rewrite drop_app, (drop_all p (rev s)) by auto. cbn [rev drop_while]. now destruct (p c).
Qed.
Lemma pf_rstrip p s t : hi p -> pf s t -> pf (rstrip_by p s) (rstrip_by p t).
Proof.
  intros Hp H. induction H as [|c s t H IH|h l a s t Hh Hl Ha H IH].
  - constructor.
  - rewrite !rstrip_cons. inversion IH as [E1 E2|c' s' t' G E1 E2|h l a s' t' Hh Hl Ha G E1 E2].
    + destruct (p c); [constructor|apply pf_refl].
    + constructor. now constructor.
    + constructor. now constructor.
  - rewrite !rstrip_cons. pose proof (Hp a ltac:(lia)) as A.
    rewrite A, (Hp h), (Hp l) by lia. inversion IH as [E1 E2|c' s' t' G E1 E2|h' l' a' s' t' Hh' Hl' Ha' G E1 E2].
    + destruct (p 55296); [constructor|]. constructor; auto. constructor.
    + constructor; auto. now constructor.
    + constructor; auto. now constructor.
Qed.
Lemma pf_clean s t : pf s t -> pf (clean s) (clean t).
Proof.
  intros H. unfold clean, strip_c0, remove_tabs. apply pf_filter; [apply hi_negb, hi_tab|]. apply pf_rstrip; [apply hi_c0|]. apply pf_drop_while; [apply hi_c0|auto].
Qed.

Lemma pf_split sep s t : sep < 128 -> pf s t -> Forall2 pf (split sep s) (split sep t).
Proof.
  intros Hs H. induction H as [|c s t H IH|h l a s t Hh Hl Ha H IH].
  - repeat constructor.
  - cbn [split]. destruct (c =? sep); [constructor; [constructor|exact IH]|].
    inversion IH; constructor; auto; constructor; auto. constructor.
  - cbn [split]. destruct (N.eqb_spec h sep); [lia|]. destruct (N.eqb_spec l sep); [lia|].
    destruct (N.eqb_spec a sep); [lia|].
    inversion IH; constructor; auto; constructor; auto. constructor.
Qed.
Lemma pf_replace x y s t : x < 128 -> pf s t -> pf (replace_char x y s) (replace_char x y t).
Proof.
  intros Hx H. unfold replace_char. induction H as [|c s t H IH|h l a s t Hh Hl Ha H IH].
  - constructor.
  - cbn [map]. now constructor.
  - cbn [map]. destruct (N.eqb_spec h x); [lia|]. destruct (N.eqb_spec l x); [lia|].
    destruct (N.eqb_spec a x); [lia|]. now constructor.
Qed.
Lemma pf_pieces sp s t : pf s t -> Forall2 pf (pieces sp s) (pieces sp t).
Proof.
  intros H. unfold pieces, norm_slash. apply pf_split; [lia|]. destruct sp; [|auto]. apply pf_replace; [lia|auto].
Qed.
Lemma pf_push sch sep segs s t : pf s t -> push sch sep segs s = push sch sep segs t.
Proof. intros H. unfold push. now rewrite (pf_upe _ _ _ _ H). Qed.
Lemma pf_walk sch ps qs : Forall2 pf ps qs -> forall segs, walk sch segs ps = walk sch segs qs.
Proof.
  intros H. induction H as [|p q ps qs H G IH]; intros segs; [reflexivity|]. cbn [walk].
  destruct G; [now apply pf_push|]. rewrite (pf_push sch true segs _ _ H). apply IH.
Qed.
Definition orel (o o' : option (str * str)) : Prop :=
  match o, o' with None, None => True | Some (a, b), Some (c, d) => pf a c /\ pf b d | _, _ => False end.
Lemma pf_split_last x s t : x < 128 -> pf s t -> orel (split_last x s) (split_last x t).
Proof.
  intros Hx H. induction H as [|c s t H IH|h l a s t Hh Hl Ha H IH].
  - exact I.
  - cbn [split_last]. destruct (split_last x s) as [[a1 b1]|], (split_last x t) as [[a2 b2]|]; cbn [orel] in *; try contradiction.
    + destruct IH. split; [now constructor|auto].
    + destruct (c =? x); [split; [constructor|auto]|exact I].
  - cbn [split_last]. destruct (N.eqb_spec h x); [lia|]. destruct (N.eqb_spec l x); [lia|].
    destruct (N.eqb_spec a x); [lia|].
    destruct (split_last x s) as [[a1 b1]|], (split_last x t) as [[a2 b2]|]; cbn [orel] in *; try contradiction.
    + destruct IH. split; [now constructor|auto].
    + exact I.
Qed.
Lemma pf_tl_hi p s t : hi p -> p 55296 = true -> pf s t -> match s with c :: _ => p c = false | [] => True end -> pf (tl s) (tl t).
Proof. intros Hp P H F. destruct H; cbn [tl]; [constructor|auto|]. rewrite (Hp h), P in F by lia. discriminate. Qed.
Lemma span_snd p s : match snd (span p s) with c :: _ => p c = false | [] => True end.
Proof. induction s as [|c s IH]; [exact I|]. cbn [span]. destruct (p c) eqn:P; [|exact P]. destruct (span p s). exact IH. Qed.
Lemma pf_split_first x s t : x < 128 -> pf s t ->
  pf (fst (split_first x s)) (fst (split_first x t)) /\ pf (snd (split_first x s)) (snd (split_first x t)).
Proof.
  intros Hx H. assert (P : hi (fun c => negb (c =? x))) by (apply hi_negb; intros c Hc; lia).
  destruct (pf_span _ _ _ P H) as [A B]. unfold split_first. pose proof (span_snd (fun c => negb (c =? x)) s) as F.
  destruct (span _ s) as [a b], (span _ t) as [a' b']. cbn [fst snd] in *. split; [auto|].
  apply (pf_tl_hi _ _ _ P); auto. lia.
Qed.
Definition hrel (o o' : str * option str) : Prop :=
  pf (fst o) (fst o') /\ match snd o, snd o' with None, None => True | Some a, Some b => pf a b | _, _ => False end.
Lemma pf_host_cut s t : pf s t -> forall br, hrel (host_cut br s) (host_cut br t).
Proof.
  intros H. induction H as [|c s t H IH|h l a s t Hh Hl Ha H IH]; intros br.
  - split; [constructor|exact I].
  - cbn [host_cut]. destruct ((c =? 58) && negb br); [split; [constructor|auto]|].
    specialize (IH (if c =? 91 then true else if c =? 93 then false else br)).
    destruct (host_cut _ s), (host_cut _ t). destruct IH. split; [now constructor|auto].
  - cbn [host_cut]. 
    replace (h =? 58) with false by lia. replace (l =? 58) with false by lia. replace (a =? 58) with false by lia.
    replace (h =? 91) with false by lia. replace (l =? 91) with false by lia. replace (a =? 91) with false by lia.
    replace (h =? 93) with false by lia. replace (l =? 93) with false by lia. replace (a =? 93) with false by lia.
    cbn [andb]. specialize (IH br). destruct (host_cut br s), (host_cut br t). destruct IH. split; [now constructor|auto].
Qed.
Lemma pf_len0 s t : pf s t -> (length s =? 0)%nat = (length t =? 0)%nat.
Proof. intros H. destruct H; reflexivity. Qed.
Lemma mem_alpha_hi c : 55296 <= c -> mem c ASCII_ALPHA = false. Proof. apply mem_hi. reflexivity. Qed.
Lemma pf_drive s t : pf s t -> is_windows_drive_letter s = is_windows_drive_letter t.
Proof.
  intros H. unfold is_windows_drive_letter. inversion H as [E1 E2|c s' t' G E1 E2|h l a s' t' Hh Hl Ha G E1 E2]; [reflexivity| |].
  - inversion G as [E3 E4|c2 s2 t2 G2 E3 E4|h l a s2 t2 Hh Hl Ha G2 E3 E4]; [reflexivity| |].
    + inversion G2; try reflexivity.
    + rewrite (mem_hi a) by (reflexivity || lia). rewrite andb_false_r. destruct t2; reflexivity.
  - rewrite (mem_alpha_hi h), (mem_alpha_hi a) by lia. cbn [andb]. destruct s'; destruct t' as [|? [|? ?]]; reflexivity.
Qed.
Lemma pf_starts_drive s t : pf s t -> starts_with_windows_drive_letter s = starts_with_windows_drive_letter t.
Proof.
  intros H. unfold starts_with_windows_drive_letter.
  inversion H as [E1 E2|c s' t' G E1 E2|h l a s' t' Hh Hl Ha G E1 E2]; [reflexivity| |].
  - inversion G as [E3 E4|c2 s2 t2 G2 E3 E4|h l a s2 t2 Hh Hl Ha G2 E3 E4]; [reflexivity| |].
    + cbn [firstn length nth_error]. inversion G2 as [E5 E6|c3 s3 t3 G3 E5 E6|h l a s3 t3 Hh Hl Ha G3 E5 E6]; [reflexivity|reflexivity|].
      cbn [length Nat.leb Nat.eqb]. rewrite (mem_hi h), (mem_hi a) by (reflexivity || lia). reflexivity.
    + cbn [firstn length nth_error]. unfold is_windows_drive_letter.
      rewrite (mem_hi h), (mem_hi a) by (reflexivity || lia). rewrite !andb_false_r. cbn [andb]. destruct t2; reflexivity.
  - cbn [firstn length nth_error]. unfold is_windows_drive_letter. rewrite (mem_alpha_hi h) by lia.
    cbn [andb]. rewrite !andb_false_r. destruct t' as [|x t']; [reflexivity|].
    rewrite (mem_alpha_hi a) by lia. cbn [andb]. rewrite !andb_false_r. reflexivity.
Qed.
Lemma pf_starts2 s t : pf s t -> starts_with $"//" s = starts_with $"//" t.
Proof.
  intros H. change ($"//") with [47; 47]. inversion H as [E1 E2|c s' t' G E1 E2|h l a s' t' Hh Hl Ha G E1 E2]; [reflexivity| |]; cbn [starts_with].
  - f_equal. inversion G; try reflexivity. cbn [starts_with]. lia.
  - replace (47 =? h) with false by lia. replace (47 =? a) with false by lia. reflexivity.
Qed.

(* ---------- hosts ---------- *)
Lemma ends_cons c s x : ends_with_char (c :: s) x = match s with [] => c =? x | _ => ends_with_char s x end.
Proof.
  destruct s as [|d s]; [reflexivity|]. unfold ends_with_char. cbn [rev].
  destruct (rev s ++ [d]) eqn:Q; [now destruct (rev s)|]. reflexivity.
Qed.
Lemma pf_ends s t x : x < 128 -> pf s t -> ends_with_char s x = ends_with_char t x.
Proof.
  intros Hx H. induction H as [|c s t H IH|h l a s t Hh Hl Ha H IH]; [reflexivity| |].
  - rewrite !ends_cons. destruct H; [reflexivity| |]; exact IH.
  - rewrite !ends_cons. destruct H; [lia| |]; exact IH.
Qed.
Lemma pf_removelast s t x : x < 128 -> pf s t -> ends_with_char s x = true -> pf (removelast s) (removelast t).
Proof.
  intros Hx H. induction H as [|c s t H IH|h l a s t Hh Hl Ha H IH]; intros G.
  - constructor.
  - rewrite ends_cons in G. cbn [removelast]. destruct H; [constructor| |]; apply pf_s; apply IH; exact G.
  - rewrite !ends_cons in G. cbn [removelast]. destruct H; [lia| |]; apply pf_p; auto; apply IH; exact G.
Qed.

Definition v4c (c : N) : bool := mem c (46 :: ASCII_DIGITS).
Lemma bad_split s : existsb (fun c => negb (v4c c)) s = true ->
  existsb (fun x => existsb (fun y => negb (mem y ASCII_DIGITS)) x) (split 46 s) = true.
Proof.
  induction s as [|c s IH]; [discriminate|]. cbn [existsb split]. intros H. destruct (N.eqb_spec c 46) as [->|Hc].
  - cbn [existsb]. apply IH. exact H.
  - destruct (split 46 s) as [|q qs] eqn:Q; [destruct s; cbn [split] in Q; [discriminate|]; destruct (n =? 46); [discriminate|]; destruct (split 46 s); discriminate|].
    cbn [existsb]. apply orb_true_iff in H as [H|H].
    + unfold v4c, mem in H. cbn [existsb] in H. destruct (N.eqb_spec c 46); [congruence|]. cbn [orb] in H. fold (mem c ASCII_DIGITS) in H. now rewrite H.
    + specialize (IH H). cbn [existsb] in IH. apply orb_true_iff in IH as [-> | ->]; rewrite ?orb_true_r; reflexivity.
Qed.
Lemma bad_split' s : existsb (fun c => negb (v4c c)) s = true -> existsb bad_ipv4_piece (split 46 s) = true.
Proof.
  intros H. apply bad_split in H. apply existsb_exists in H as (x & Hx & P). apply existsb_exists. exists x. split; [auto|].
  unfold bad_ipv4_piece. rewrite P. now rewrite orb_true_r.
Qed.
Lemma none_bad (p : N -> bool) s : existsb (fun c => negb (p c)) s = false -> forallb p s = true.
Proof. intros H. apply forallb_forall. intros x Hx. rewrite existsb_false in H. specialize (H x Hx). cbv beta in H. now destruct (p x). Qed.

Definition stR (s t : v6state) : Prop :=
  v6_addr s = v6_addr t /\ v6_index s = v6_index t /\ v6_compress s = v6_compress t /\
  pf (v6_piece s) (v6_piece t) /\ isc (v6_prev s) 58 = isc (v6_prev t) 58.
Lemma pf_ipv6_piece E c s t : stR s t -> snd (ipv6_piece E c s) = snd (ipv6_piece E c t).
Proof.
  intros (H1 & H2 & H3 & H4 & H5). unfold ipv6_piece. rewrite H1, H2, H3. cbv zeta.
  assert (M : mem 46 (v6_piece s) = mem 46 (v6_piece t)).
  { unfold mem. apply pf_existsb; [|auto]. intros x Hx. lia. }
  rewrite M. clear M. destruct (mem 46 (v6_piece t)); cbn [negb].
  - destruct (6 <? v6_index t)%nat; [reflexivity|].
    assert (P : hi v4c) by (unfold v4c; his).
    pose proof (pf_existsb _ _ _ (hi_negb _ P) H4) as X.
    destruct (existsb (fun c => negb (v4c c)) (v6_piece s)) eqn:Q.
    + rewrite (bad_split' _ Q). symmetry in X. rewrite (bad_split' _ X). rewrite !orb_true_r. reflexivity.
    + rewrite (pf_plain _ _ _ P eq_refl H4 (none_bad _ _ Q)). reflexivity.
  - assert (P : hi (fun c => mem c ASCII_HEX_DIGITS)) by his.
    pose proof (pf_existsb _ _ _ (hi_negb _ P) H4) as X. cbv beta in X.
    destruct (existsb (fun c => negb (mem c ASCII_HEX_DIGITS)) (v6_piece s)) eqn:Q.
    + rewrite <- X. rewrite !orb_true_r. reflexivity.
    + rewrite (pf_plain _ _ _ P eq_refl H4 (none_bad _ _ Q)). rewrite <- X. reflexivity.
Qed.
Definition rrel {A} (R : A -> A -> Prop) (r r' : res A) : Prop :=
  match r, r' with Ok a, Ok b => R a b | Err e, Err e' => e = e' | _, _ => False end.
Lemma pf_ipv6_sep E c s t : stR s t -> rrel (fun a b => stR (fst a) (fst b)) (snd (ipv6_sep E c s)) (snd (ipv6_sep E c t)).
Proof.
  intros H. pose proof H as (H1 & H2 & H3 & H4 & H5). unfold ipv6_sep. rewrite H1, H2, H3, H5. cbv zeta.
  destruct (isc (v6_prev t) 58 && isc c 58).
  - destruct (v6_compress t); [reflexivity|]. cbn [snd wret rrel fst]. unfold stR. cbn. auto 6.
  - destruct (isc (v6_prev t) 58 && iseof c).
    + destruct (v6_compress t); [|reflexivity]. destruct (_ =? _)%nat; [|reflexivity]. exact H.
    + pose proof (pf_ipv6_piece E c s t H) as P. destruct H4.
      * cbn [snd wret rrel fst]. unfold stR. cbn. repeat split. constructor.
      * rewrite !snd_wbind'. rewrite P. destruct (snd (ipv6_piece E c t)); [|reflexivity]. cbn. repeat split. apply pf_refl.
      * rewrite !snd_wbind'. rewrite P. destruct (snd (ipv6_piece E c t)); [|reflexivity]. cbn. repeat split. apply pf_refl.
Qed.
Lemma pf_ipv6_loop E s t : pf s t -> forall a b, stR a b -> rrel stR (snd (ipv6_loop E s a)) (snd (ipv6_loop E t b)).
Proof.
  intros H. induction H as [|c s t H IH|h l x s t Hh Hl Hx H IH]; intros a b R.
  - cbn [ipv6_loop]. replace (v6_index a) with (v6_index b) by (symmetry; apply R). destruct (8 <=? v6_index b)%nat; [reflexivity|].
    rewrite !snd_wbind'. pose proof (pf_ipv6_sep E None a b R) as P.
    destruct (snd (ipv6_sep E None a)), (snd (ipv6_sep E None b)); cbn [rrel] in P; try contradiction; exact P.
  - cbn [ipv6_loop]. replace (v6_index a) with (v6_index b) by (symmetry; apply R). destruct (8 <=? v6_index b)%nat; [reflexivity|].
    destruct (negb (c =? 58)).
    + apply IH. destruct R as (R1 & R2 & R3 & R4 & R5). unfold stR. cbn. repeat split; auto. apply pf_app; [auto|apply pf_refl].
    + rewrite !snd_wbind'. pose proof (pf_ipv6_sep E (Some c) a b R) as P.
      destruct (snd (ipv6_sep E (Some c) a)), (snd (ipv6_sep E (Some c) b)); cbn [rrel] in P; try contradiction; [|exact P]. apply IH. exact P.
  - cbn [ipv6_loop]. replace (v6_index a) with (v6_index b) by (symmetry; apply R). destruct (8 <=? v6_index b)%nat eqn:I8; [reflexivity|].
    replace (h =? 58) with false by lia. replace (l =? 58) with false by lia. replace (x =? 58) with false by lia. cbn [negb v6_index].
    rewrite I8. apply IH. destruct R as (R1 & R2 & R3 & R4 & R5). unfold stR. cbn [v6_addr v6_index v6_compress v6_piece v6_prev]. repeat split; auto.
    + rewrite <- app_assoc. apply pf_app; [auto|]. cbn [app]. apply pf_p; auto. constructor.
    + unfold isc. lia.
Qed.
Lemma pf_ipv6_parse E s t : pf s t -> snd (ipv6_parse E s) = snd (ipv6_parse E t).
Proof.
  intros H. unfold ipv6_parse. cbv zeta. change ($":") with [58]. change ($"::") with [58; 58].
  assert (S1 : starts_with [58] s = starts_with [58] t).
  { destruct H; cbn [starts_with]; [reflexivity|reflexivity|]. lia. }
  assert (S2 : starts_with [58; 58] s = starts_with [58; 58] t).
  { destruct H; cbn [starts_with]; [reflexivity| |lia]. f_equal. destruct H; cbn [starts_with]; [reflexivity|reflexivity|]. lia. }
  rewrite S1, S2. destruct (starts_with [58] t) eqn:Q1.
  - destruct (starts_with [58; 58] t) eqn:Q2; [|reflexivity]. rewrite !snd_wbind'. cbn [snd wret fst].
    assert (P : pf (skipn 2 s) (skipn 2 t)).
    { destruct H; cbn [starts_with] in Q2; [discriminate| |lia]. apply andb_true_iff in Q2 as [_ Q2]. destruct H; cbn [starts_with] in Q2; [discriminate| |lia].
      cbn [skipn]. exact H. }
    pose proof (pf_ipv6_loop E _ _ P {| v6_addr := repeat 0 8; v6_index := 1; v6_compress := Some 1%nat; v6_piece := []; v6_prev := None |}
      {| v6_addr := repeat 0 8; v6_index := 1; v6_compress := Some 1%nat; v6_piece := []; v6_prev := None |}) as L.
    rewrite !snd_wbind'.
    destruct (snd (ipv6_loop E (skipn 2 s) _)) as [x|e], (snd (ipv6_loop E (skipn 2 t) _)) as [y|e']; cbn [rrel] in L.
    + destruct (L (conj eq_refl (conj eq_refl (conj eq_refl (conj pf_n eq_refl))))) as (A1 & A2 & A3 & _). now rewrite A1, A2, A3.
    + destruct (L (conj eq_refl (conj eq_refl (conj eq_refl (conj pf_n eq_refl))))).
    + destruct (L (conj eq_refl (conj eq_refl (conj eq_refl (conj pf_n eq_refl))))).
    + now rewrite (L (conj eq_refl (conj eq_refl (conj eq_refl (conj pf_n eq_refl))))).
  - rewrite !snd_wbind'. cbn [snd wret fst]. rewrite !snd_wbind'.
    pose proof (pf_ipv6_loop E _ _ H {| v6_addr := repeat 0 8; v6_index := 0; v6_compress := None; v6_piece := []; v6_prev := None |}
      {| v6_addr := repeat 0 8; v6_index := 0; v6_compress := None; v6_piece := []; v6_prev := None |}
      (conj eq_refl (conj eq_refl (conj eq_refl (conj pf_n eq_refl))))) as L.
    destruct (snd (ipv6_loop E s _)) as [x|e], (snd (ipv6_loop E t _)) as [y|e']; cbn [rrel] in L; try contradiction.
    + destruct L as (A1 & A2 & A3 & _). now rewrite A1, A2, A3.
    + now rewrite L.
Qed.
Lemma pf_opaque_host s t : pf s t -> snd (parse_opaque_host s) = snd (parse_opaque_host t).
Proof.
  intros H. unfold parse_opaque_host.
  assert (P : hi (fun c => mem c FORBIDDEN_HOST_CODE_POINT)) by his.
  rewrite (pf_existsb _ _ _ P H). destruct (existsb _ t); [reflexivity|]. rewrite !snd_wbind'. rewrite (pf_upe _ _ _ _ H).
  destruct (is_url_units _ _ s), (is_url_units _ _ t); reflexivity.
Qed.
Lemma pf_host_parse E s t ns : pf s t -> snd (host_parse E s ns) = snd (host_parse E t ns).
Proof.
  intros H. assert (Z : s = [] \/ (s <> [] /\ t <> [])) by (destruct H; [left; reflexivity|right; split; discriminate|right; split; discriminate]).
  destruct Z as [->|[Zs Zt]]; [apply pf_nil_l in H; now subst|]. rewrite !host_parse_eq by auto.
  assert (S1 : starts_with [91] s = starts_with [91] t).
  { destruct H; cbn [starts_with]; [reflexivity|reflexivity|]. lia. }
  rewrite S1. rewrite <- (pf_ends s t 93 ltac:(lia) H). destruct (starts_with [91] t) eqn:Q.
  - destruct (ends_with_char s 93) eqn:Q2; [|reflexivity].
    assert (P : pf (removelast (tl s)) (removelast (tl t))).
    { destruct H; cbn [starts_with] in Q; [discriminate| |lia]. cbn [tl]. rewrite ends_cons in Q2. destruct H; [constructor| |]; apply (pf_removelast _ _ 93); try lia; auto; now constructor. }
    now rewrite (pf_ipv6_parse E _ _ P).
  - destruct ns; [now rewrite (pf_opaque_host _ _ H)|]. now rewrite (pf_spd _ _ H).
Qed.

(* ---------- the parser ---------- *)
Definition low_head (t : str) : Prop := match t with c :: _ => c < 55296 | [] => True end.
Lemma low_span p s : p 55296 = true -> hi p -> low_head (snd (span p s)).
Proof.
  intros P Hp. pose proof (span_snd p s) as F. unfold low_head. destruct (snd (span p s)) as [|c t]; [exact I|].
  destruct (N.lt_ge_cases c 55296) as [L|L]; [auto|]. rewrite (Hp c L), P in F. discriminate.
Qed.
Lemma pf_low s t : pf s t -> low_head s -> (s = [] /\ t = []) \/ exists c a b, s = c :: a /\ t = c :: b /\ pf a b.
Proof.
  intros H L. destruct H; cbn [low_head] in L; [auto|right; eauto 6|]. lia.
Qed.
Lemma pf_frag u s t : pf s t -> low_head s -> flat_frag u s = flat_frag u t.
Proof.
  intros H L. destruct (pf_low _ _ H L) as [[-> ->]|(c & a & b & -> & -> & G)]; [reflexivity|].
  cbn [flat_frag]. unfold enc_fragment. now rewrite (pf_upe _ _ _ _ G).
Qed.
Lemma pf_query E enc u s t : pf s t -> flat_query E enc u s = flat_query E enc u t.
Proof.
  intros H. unfold flat_query. assert (P : hi (fun c => negb (c =? 35))) by his.
  pose proof (pf_span _ _ _ P H) as [A B]. pose proof (low_span _ s (eq_refl : (fun c => negb (c =? 35)) 55296 = true) P) as L.
  destruct (span _ s) as [q x], (span _ t) as [q' x']. cbn [fst snd] in *.
  unfold enc_query. rewrite (pf_spe _ _ _ _ _ A). destruct (string_percent_encode _ q' _ _); [|reflexivity].
  now rewrite (pf_frag _ _ _ B L).
Qed.
Lemma pf_tail E enc u s t : pf s t -> low_head s -> flat_tail E enc u s = flat_tail E enc u t.
Proof.
  intros H L. pose proof (pf_frag u _ _ H L) as F. destruct (pf_low _ _ H L) as [[-> ->]|(c & a & b & -> & -> & G)]; [reflexivity|].
  cbn [flat_tail]. destruct (c =? 63); [now apply pf_query|]. now rewrite F.
Qed.
Lemma pf_span_qf s t : pf s t ->
  pf (fst (span (fun c => negb (is_qf c)) s)) (fst (span (fun c => negb (is_qf c)) t)) /\
  pf (snd (span (fun c => negb (is_qf c)) s)) (snd (span (fun c => negb (is_qf c)) t)) /\
  low_head (snd (span (fun c => negb (is_qf c)) s)).
Proof.
  intros H. assert (P : hi (fun c => negb (is_qf c))) by apply (hi_negb _ hi_qf).
  destruct (pf_span _ _ _ P H) as [A B]. split; [auto|split; [auto|]]. apply low_span; [reflexivity|auto].
Qed.
Lemma pf_path E enc u s t : pf s t -> flat_path E enc u s = flat_path E enc u t.
Proof.
  intros H. unfold flat_path. destruct (pf_span_qf _ _ H) as (A & B & L).
  destruct (span _ s) as [p x], (span _ t) as [p' x']. cbn [fst snd] in *.
  rewrite (pf_walk _ _ _ (pf_pieces (is_special u) _ _ A)). now apply pf_tail.
Qed.
Lemma pf_path_start E enc u s t : pf s t -> flat_path_start E enc u s = flat_path_start E enc u t.
Proof.
  intros H. pose proof (pf_path E enc u s t H) as P. unfold flat_path_start.
  destruct H as [|c s t H|h l a s t Hh Hl Ha H]; [reflexivity| |].
  - destruct (is_special u).
    + destruct (is_slash c); [now apply pf_path|exact P].
    + destruct (is_qf c) eqn:Q.
      * apply pf_tail; [now constructor|]. unfold low_head. destruct (N.lt_ge_cases c 55296) as [L|L]; [auto|].
        rewrite (hi_qf c L) in Q. discriminate.
      * destruct (c =? 47); [now apply pf_path|exact P].
  - rewrite (hi_slash h), (hi_slash a), (hi_qf h), (hi_qf a) by lia. cbv beta.
    change (is_slash 55296) with false. change (is_qf 55296) with false. cbv iota.
    replace (h =? 47) with false by lia. replace (a =? 47) with false by lia. destruct (is_special u); exact P.
Qed.
Lemma tail_opaque E enc u p q s :
  rrel same_but_opaque (flat_tail E enc (set_path (POpaque p) u) s) (flat_tail E enc (set_path (POpaque q) u) s).
Proof.
  assert (F : forall o t, same_but_opaque (flat_frag (match o with Some x => set_query (Some x) (set_path (POpaque p) u) | None => set_path (POpaque p) u end) t)
                                          (flat_frag (match o with Some x => set_query (Some x) (set_path (POpaque q) u) | None => set_path (POpaque q) u end) t)).
  { intros o t. unfold same_but_opaque. destruct u, o, t; cbn; repeat split; right; eauto. }
  destruct s as [|c t].
  - exact (F None []).
  - cbn [flat_tail]. destruct (c =? 63).
    + unfold flat_query. destruct (span _ t) as [x y].
      replace (enc_query E enc (set_path (POpaque q) u) x) with (enc_query E enc (set_path (POpaque p) u) x) by (destruct u; reflexivity).
      destruct (enc_query E enc (set_path (POpaque p) u) x) as [z|]; [|reflexivity]. exact (F (Some z) y).
    + exact (F None (c :: t)).
Qed.
Lemma sbo_refl u : same_but_opaque u u.
Proof. unfold same_but_opaque. repeat split. now left. Qed.
Lemma rrel_eq (r r' : res urlrec) : r = r' -> rrel same_but_opaque r r'.
Proof. intros ->. destruct r'; [apply sbo_refl|reflexivity]. Qed.
Lemma pf_opaque E enc u s t : pf s t -> rrel same_but_opaque (flat_opaque E enc u s) (flat_opaque E enc u t).
Proof.
  intros H. unfold flat_opaque. destruct (pf_span_qf _ _ H) as (A & B & L).
  destruct (span _ s) as [p x], (span _ t) as [p' x']. cbn [fst snd] in *.
  rewrite (pf_tail E enc _ _ _ B L). apply tail_opaque.
Qed.
Lemma pf_creds u s t : pf s t -> set_creds s u = set_creds t u.
Proof.
  intros H. unfold set_creds. destruct (pf_split_first 58 s t ltac:(lia) H) as [A B].
  destruct (split_first 58 s), (split_first 58 t). cbn [fst snd] in *. unfold enc_userinfo. now rewrite (pf_upe _ _ _ _ A), (pf_upe _ _ _ _ B).
Qed.
Lemma pf_port E sch s t : pf s t -> flat_port E sch s = flat_port E sch t.
Proof.
  intros H. assert (P : hi (fun c => mem c ASCII_DIGITS)) by his. unfold flat_port. rewrite <- (pf_forallb _ _ _ P H).
  destruct (forallb (fun c => mem c ASCII_DIGITS) s) eqn:Q; [|reflexivity]. rewrite (pf_plain _ _ _ P eq_refl H Q). reflexivity.
Qed.
Lemma pf_host E enc u a a' t t' : pf a a' -> pf t t' -> flat_host E enc u a t = flat_host E enc u a' t'.
Proof.
  intros H G. unfold flat_host. pose proof (pf_host_cut _ _ H false) as [A B].
  destruct (host_cut false a) as [h [ps|]], (host_cut false a') as [h' [ps'|]]; cbn [fst snd] in *; try contradiction.
  - rewrite (pf_len0 _ _ A), (pf_host_parse E _ _ (is_not_special u) A). destruct (length h' =? 0)%nat; [reflexivity|].
    destruct (snd (host_parse E h' (is_not_special u))); [|reflexivity]. cbn [rbind]. rewrite (pf_port _ _ _ _ B).
    destruct (flat_port E (scheme u) ps'); [|reflexivity]. cbn [rbind]. now apply pf_path_start.
  - rewrite (pf_len0 _ _ A), (pf_host_parse E _ _ (is_not_special u) A). destruct (is_special u && (length h' =? 0)%nat); [reflexivity|].
    destruct (snd (host_parse E h' (is_not_special u))); [|reflexivity]. cbn [rbind]. now apply pf_path_start.
Qed.
Lemma pf_authority E enc u s t : pf s t -> flat_authority E enc u s = flat_authority E enc u t.
Proof.
  intros H. unfold flat_authority. destruct (pf_span _ _ _ (hi_negb _ (hi_ends (is_special u))) H) as [A B].
  destruct (span _ s) as [a x], (span _ t) as [a' x']. cbn [fst snd] in *.
  pose proof (pf_split_last 64 _ _ ltac:(lia) A) as O.
  destruct (split_last 64 a) as [[ui hp]|], (split_last 64 a') as [[ui' hp']|]; cbn [orel] in O; try contradiction.
  - destruct O as [O1 O2]. rewrite (pf_len0 _ _ O2). destruct (length hp' =? 0)%nat; [reflexivity|]. rewrite (pf_creds _ _ _ O1). now apply pf_host.
  - now apply pf_host.
Qed.
Lemma pf_file_host E enc u s t : pf s t -> flat_file_host E enc u s = flat_file_host E enc u t.
Proof.
  intros H. unfold flat_file_host. assert (P : hi (fun c => negb (mem c $"/\?#"))) by his.
  destruct (pf_span _ _ _ P H) as [A B]. destruct (span _ s) as [h x], (span _ t) as [h' x']. cbn [fst snd] in *.
  rewrite (pf_drive _ _ A). destruct (is_windows_drive_letter h'); [now apply pf_path|].
  pose proof (pf_host_parse E _ _ (is_not_special u) A) as HP. destruct A; [now apply pf_path_start| |];
    rewrite HP; clear HP; (destruct (snd (host_parse E (_ :: _) (is_not_special u))); [|reflexivity]); cbn [rbind]; now apply pf_path_start.
Qed.
Lemma pf_slash_url base u s t : pf s t -> file_slash_url base s u = file_slash_url base t u.
Proof. intros H. unfold file_slash_url. now rewrite (pf_starts_drive _ _ H). Qed.
Lemma pf_file_slash E base enc u s t : pf s t -> flat_file_slash E base enc u s = flat_file_slash E base enc u t.
Proof.
  intros H. pose proof (pf_path E enc (file_slash_url base t u) s t H) as P. rewrite <- (pf_slash_url base u s t H) in P at 1.
  unfold flat_file_slash. destruct H as [|c s t H|h l a s t Hh Hl Ha H]; [reflexivity| |].
  - destruct (is_slash c); [now apply pf_file_host|exact P].
  - rewrite (hi_slash h), (hi_slash a) by lia. change (is_slash 55296) with false. exact P.
Qed.
Lemma qf_low c t : is_qf c = true -> low_head (c :: t).
Proof. intros Q. cbn [low_head]. destruct (N.lt_ge_cases c 55296) as [L|L]; [auto|]. rewrite (hi_qf c L) in Q. discriminate. Qed.
Lemma pf_file E base enc s t : pf s t -> flat_file E base enc s = flat_file E base enc t.
Proof.
  intros H. unfold flat_file. cbv zeta. pose proof (pf_starts_drive _ _ H) as W. pose proof H as H0.
  assert (P : forall u, flat_path E enc u s = flat_path E enc u t) by (intros u; now apply pf_path).
  destruct H as [|c s t H|h l a s t Hh Hl Ha H]; [reflexivity| |].
  - destruct (is_slash c); [now apply pf_file_slash|]. destruct base as [b|]; [|apply P].
    destruct (str_eqb (scheme b) $"file"); [|apply P]. destruct (is_qf c) eqn:Q; [apply pf_tail; [auto|now apply qf_low]|].
    rewrite W. apply P.
  - rewrite (hi_slash h), (hi_slash a), (hi_qf h), (hi_qf a) by lia. change (is_slash 55296) with false. change (is_qf 55296) with false. cbv iota.
    destruct base as [b|]; [|apply P]. destruct (str_eqb (scheme b) $"file"); [|apply P]. rewrite W. apply P.
Qed.
Lemma pf_relative_slash E b enc u s t : pf s t -> flat_relative_slash E b enc u s = flat_relative_slash E b enc u t.
Proof.
  intros H. unfold flat_relative_slash. pose proof (pf_path E enc (base_auth b u) _ _ H) as P.
  destruct H as [|c s t H|h l a s t Hh Hl Ha H]; [reflexivity| |].
  - destruct (is_special u && is_slash c); [apply pf_authority; apply pf_drop_while; [apply hi_slash|auto]|].
    destruct (c =? 47); [now apply pf_authority|exact P].
  - rewrite (hi_slash h), (hi_slash a) by lia. change (is_slash 55296) with false. rewrite andb_false_r.
    replace (h =? 47) with false by lia. replace (a =? 47) with false by lia. exact P.
Qed.
Lemma pf_relative E b enc s t : pf s t -> flat_relative E b enc s = flat_relative E b enc t.
Proof.
  intros H. unfold flat_relative. cbv zeta. pose proof H as H0.
  assert (P : forall u, flat_path E enc u s = flat_path E enc u t) by (intros u; now apply pf_path).
  destruct H as [|c s t H|h l a s t Hh Hl Ha H]; [reflexivity| |].
  - destruct (_ || _); [now apply pf_relative_slash|]. destruct (is_qf c) eqn:Q; [apply pf_tail; [auto|now apply qf_low]|apply P].
  - replace (h =? 47) with false by lia. replace (a =? 47) with false by lia. replace (h =? 92) with false by lia. replace (a =? 92) with false by lia.
    rewrite andb_false_r. cbn [orb]. rewrite (hi_qf h), (hi_qf a) by lia. change (is_qf 55296) with false. cbv iota. apply P.
Qed.
Lemma pf_scheme_split s t : pf s t ->
  match scheme_split s, scheme_split t with None, None => True | Some (a, b), Some (c, d) => a = c /\ pf b d | _, _ => False end.
Proof.
  intros H. unfold scheme_split. destruct H as [|c s t H|h l a s t Hh Hl Ha H]; [exact I| |].
  - destruct (mem c ASCII_ALPHA); [|exact I]. destruct (pf_span _ _ _ hi_scheme H) as [A B].
    assert (F : forall x, forallb is_scheme_char (fst (span is_scheme_char x)) = true).
    { induction x as [|y x IH]; [reflexivity|]. cbn [span]. destruct (is_scheme_char y) eqn:Y; [|reflexivity].
      destruct (span is_scheme_char x). cbn [fst forallb] in *. now rewrite Y. }
    specialize (F s). destruct (span is_scheme_char s) as [p x], (span is_scheme_char t) as [p' x']. cbn [fst snd] in *.
    pose proof (pf_plain _ _ _ hi_scheme eq_refl A F) as ->. destruct B as [|d x y B|h l a x y Hh Hl Ha B]; [exact I| |].
    + destruct (d =? 58); [split; [reflexivity|auto]|exact I].
    + replace (h =? 58) with false by lia. replace (a =? 58) with false by lia. exact I.
  - rewrite !mem_alpha_hi by lia. exact I.
Qed.
Lemma pf_scheme E base enc sch s t : pf s t -> rrel same_but_opaque (flat_scheme E base enc sch s) (flat_scheme E base enc sch t).
Proof.
  intros H. unfold flat_scheme. cbv zeta. destruct (str_eqb sch $"file"); [apply rrel_eq; now apply pf_file|].
  assert (A : forall u, flat_authority E enc u (drop_while is_slash s) = flat_authority E enc u (drop_while is_slash t)).
  { intros u. apply pf_authority. apply pf_drop_while; [apply hi_slash|auto]. }
  destruct (special_scheme sch).
  - apply rrel_eq. destruct base as [b|]; [|apply A]. rewrite (pf_starts2 _ _ H). destruct (_ && _); [now apply pf_relative|apply A].
  - pose proof (pf_opaque E enc (set_scheme sch new_url) _ _ H) as O.
    destruct H as [|c s t H|h l a s t Hh Hl Ha H]; [exact O| |].
    + destruct (c =? 47); [|exact O]. apply rrel_eq. pose proof (pf_path E enc (set_scheme sch new_url) _ _ H) as P.
      destruct H as [|d s t H|h l a s t Hh Hl Ha H]; [reflexivity| |].
      * destruct (d =? 47); [now apply pf_authority|exact P].
      * replace (h =? 47) with false by lia. replace (a =? 47) with false by lia. exact P.
    + replace (h =? 47) with false by lia. replace (a =? 47) with false by lia. exact O.
Qed.
Lemma pf_no_scheme E base enc s t : pf s t -> flat_no_scheme E base enc s = flat_no_scheme E base enc t.
Proof.
  intros H. unfold flat_no_scheme. destruct base as [b|]; [|reflexivity]. destruct (has_opaque_path b).
  - destruct H as [|c s t H|h l a s t Hh Hl Ha H]; [reflexivity| |].
    + destruct (c =? 35) eqn:Q; [|reflexivity]. f_equal. apply pf_frag; [now constructor|]. cbn [low_head]. lia.
    + replace (h =? 35) with false by lia. replace (a =? 35) with false by lia. reflexivity.
  - destruct (str_eqb (scheme b) $"file"); [now apply pf_file|now apply pf_relative].
Qed.
Lemma pf_parse E base enc s t : pairs_for s t -> rrel same_but_opaque (flat_parse E s base enc) (flat_parse E t base enc).
Proof.
  intros H. apply pf_of, pf_clean in H. unfold flat_parse, flat_main. pose proof (pf_scheme_split _ _ H) as S.
  destruct (scheme_split (clean s)) as [[a b]|], (scheme_split (clean t)) as [[c d]|]; try contradiction.
  - destruct S as [<- S]. now apply pf_scheme.
  - apply rrel_eq. now apply pf_no_scheme.
Qed.

Lemma pairs_parse E s t base enc : enc_ok E (normalize_encoding E enc) -> base_parsed E base -> pairs_for s t ->
  (forall e, snd (parse_url E s base enc) = Err e <-> snd (parse_url E t base enc) = Err e) /\
  (forall u v, snd (parse_url E s base enc) = Ok u -> snd (parse_url E t base enc) = Ok v -> same_but_opaque u v).
Proof.
  intros He Hb P. destruct (parse_url_of E base enc) as [(b & B & Q)|(e & Q)].
  - pose proof (base_of_ok E enc base b He (base_parsed_arg E base Hb) B) as O. rewrite !Q. rewrite !parse_new_flat by auto.
    pose proof (pf_parse E b enc s t P) as R. destruct (flat_parse E s b enc) as [u|e], (flat_parse E t b enc) as [v|e']; cbn [rrel] in R; try contradiction.
    + split; [intros e; split; discriminate|]. intros u' v' H1 H2. injection H1 as <-. injection H2 as <-. exact R.
    + subst e'. split; [tauto|discriminate].
  - rewrite !Q. split; [tauto|discriminate].
Qed.
