(** How long a serialization can be. *)
From Coq Require Import Ascii String.
From Coq Require Import NArith ZArith Bool Arith Lia ZifyBool ZifyN ZifyNat List.
From Verif Require Import PyStr PyInt Codec Env HostModel UrlRecord Parser SpecText SpecHost FlatParser.
From Verif Require Import Lemmas CodecProofs QuoteProofs PyIntProofs LegacyProofs IPv4Proofs IPv6Proofs HostProofs LoopProofs FlatProofs WfProofs RoundTrip UrlProps.
Import ListNotations.
Open Scope nat_scope.

(* ---------- encoders ---------- *)
Lemma enc1_len c : length (std_utf8_encode1 c) <= 4.
Proof. unfold std_utf8_encode1. destruct (c <=? 127)%N; [cbn; lia|]. destruct (c <=? 2047)%N; [cbn; lia|]. destruct (c <=? 65535)%N; cbn; lia. Qed.
Lemma svs_len s : length (scalar_value_string s) <= length s.
Proof.
  assert (H : forall n s, length s <= n -> length (scalar_value_string s) <= length s).
  { clear s. induction n as [|n IH]; intros s L; [destruct s; [exact (le_n 0)|cbn [length] in L; lia]|]. destruct s as [|c [|d t]]; [exact (le_n 0)|apply le_n|].
    change (scalar_value_string (c :: d :: t)) with (if leading c && trailing d then (65536 + (c - 55296) * 1024 + (d - 56320))%N :: scalar_value_string t else (if leading c || trailing c then 65533%N else c) :: scalar_value_string (d :: t)).
    destruct (leading c && trailing d).
    - cbn [length] in *. specialize (IH t). lia.
    - cbn [length] in *. specialize (IH (d :: t)). cbn [length] in IH. lia. }
  now apply (H (length s)).
Qed.
Lemma flat_map_len {A B} (f : A -> list B) k l : (forall x, In x l -> length (f x) <= k) -> length (flat_map f l) <= k * length l.
Proof.
  induction l as [|x l IH]; intros H; [cbn; lia|]. cbn [flat_map length]. rewrite app_length. specialize (IH (fun y Hy => H y (or_intror Hy))). specialize (H x (or_introl eq_refl)). lia.
Qed.
Lemma enc_b_len plus safe x : length (enc_b plus safe x) <= 3.
Proof. unfold enc_b. destruct (plus && _); [cbn; lia|]. destruct (quote_safe safe x); cbn; lia. Qed.
Lemma utf8_len s : is_pystr s -> length (utf8_encode s) <= 4 * length s.
Proof.
  intros H. rewrite utf8_encode_spec by exact H. unfold std_utf8_encode. pose proof (flat_map_len std_utf8_encode1 4 (scalar_value_string s) (fun c _ => enc1_len c)). pose proof (svs_len s). lia.
Qed.
Lemma enc_len s safe : is_pystr s -> length (utf8_percent_encode s safe false) <= 12 * length s.
Proof.
  intros H. rewrite utf8_percent_encode_eq. pose proof (flat_map_len (enc_b false safe) 3 (utf8_encode s) (fun x _ => enc_b_len _ _ _)). pose proof (utf8_len s H). lia.
Qed.
Lemma opaque_len p : is_pystr p -> length (enc_opaque p) <= 12 * length p.
Proof.
  intros H. unfold enc_opaque. apply flat_map_len. intros c Hc. unfold is_pystr in H. rewrite Forall_forall in H. specialize (H c Hc).
  pose proof (enc_len [c] SAFE_C0_CONTROL (ltac:(repeat constructor; exact H))). cbn [length] in *. lia.
Qed.

(* ---------- records ---------- *)
Definition seg_size (l : list str) : nat := length (serialize_segs l).
Definition path_size (p : upath) : nat := match p with PList l => seg_size l | POpaque s => length s end.
Definition opt_size (o : option str) : nat := match o with Some s => S (length s) | None => 0 end.
Definition size (u : urlrec) : nat :=
  length (scheme u) + length (username u) + length (password u) + path_size (path u) + opt_size (query u) + opt_size (fragment u).

Lemma seg_app a b : seg_size (a ++ b) = seg_size a + seg_size b.
Proof. unfold seg_size, serialize_segs. now rewrite flat_map_app, app_length. Qed.
Lemma seg_one s : seg_size [s] = S (length s).
Proof. unfold seg_size, serialize_segs. cbn [flat_map]. now rewrite app_nil_r. Qed.
Lemma seg_cons s l : seg_size (s :: l) = S (length s) + seg_size l.
Proof. change (s :: l) with ([s] ++ l). now rewrite seg_app, seg_one. Qed.
Lemma segs_le u : seg_size (path_segs u) <= path_size (path u).
Proof. unfold path_segs. destruct (path u); cbn [path_size]; [unfold seg_size; cbn; lia|lia]. Qed.
Lemma shorten_size sch l : seg_size (shorten_segs sch l) <= seg_size l.
Proof. destruct (shorten_prefix sch l) as [x Q]. rewrite Q at 2. rewrite seg_app. lia. Qed.

Section Size.
Context (E : env) (enc : str) (k : nat) (K : 12 <= k)
  (HQ : forall u q x, is_pystr q -> enc_query E enc u q = Some x -> length x <= k * length q).

Definition cost (s : str) : nat := k * length s.
Lemma cost_cons c s : cost (c :: s) = k + cost s. Proof. unfold cost. cbn [length]. lia. Qed.
Lemma cost_nil : cost [] = 0. Proof. unfold cost. cbn [length]. lia. Qed.
Lemma cost_app a b : cost (a ++ b) = cost a + cost b. Proof. unfold cost. rewrite app_length. lia. Qed.
Lemma cost_span p s : cost (fst (span p s)) + cost (snd (span p s)) = cost s.
Proof. rewrite <- cost_app, <- span_eq. reflexivity. Qed.
Lemma cost_enc s safe : is_pystr s -> length (utf8_percent_encode s safe false) <= cost s.
Proof. intros H. pose proof (enc_len s safe H). unfold cost. nia. Qed.
Lemma cost_drop p s : cost (drop_while p s) <= cost s.
Proof. rewrite <- span_drop. pose proof (cost_span p s). lia. Qed.
Lemma drop_pystr p s : is_pystr s -> is_pystr (drop_while p s).
Proof. intros H. rewrite <- span_drop. now apply span_pystr. Qed.
Lemma pystr_tl c s : is_pystr (c :: s) -> is_pystr s.
Proof. intros H. now inversion H. Qed.

Ltac sz := unfold size, set_fragment, set_query, set_path, set_port, set_host, set_password, set_username, set_scheme in *; cbn [scheme username password uhost port path query fragment opt_size path_size] in *.

Lemma sz_frag u t : is_pystr t -> size (flat_frag u t) <= size u + cost t.
Proof.
  intros H. destruct t as [|c f]; [cbn [flat_frag]; lia|]. cbn [flat_frag]. pose proof (cost_enc f SAFE_FRAGMENT (pystr_tl _ _ H)) as L. fold (enc_fragment f) in L.
  rewrite cost_cons. sz. lia.
Qed.
Lemma sz_query u r v : is_pystr r -> flat_query E enc u r = Ok v -> size v <= size u + cost r + 1.
Proof.
  intros H Q. unfold flat_query in Q. pose proof (span_pystr (fun c => negb (c =? 35)%N) r H) as [P1 P2]. pose proof (cost_span (fun c => negb (c =? 35)%N) r) as C.
  destruct (span _ r) as [q t]. cbn [fst snd] in *. destruct (enc_query E enc u q) as [x|] eqn:X; [|discriminate]. injection Q as <-.
  pose proof (HQ u q x P1 X) as L. fold (cost q) in L. pose proof (sz_frag (set_query (Some x) u) t P2). assert (size (set_query (Some x) u) <= size u + S (length x)) by (sz; lia). lia.
Qed.
Lemma sz_tail u t v : is_pystr t -> flat_tail E enc u t = Ok v -> size v <= size u + cost t.
Proof.
  intros H Q. unfold flat_tail in Q. destruct t as [|c r]; [injection Q as <-; lia|]. destruct (c =? 63)%N.
  - apply sz_query in Q; [|now apply pystr_tl in H]. rewrite cost_cons. lia.
  - injection Q as <-. exact (sz_frag u (c :: r) H).
Qed.
Lemma sz_push sch sep segs b : is_pystr b -> seg_size (push sch sep segs b) <= seg_size segs + cost b + 1.
Proof.
  intros H. unfold push. cbv zeta. pose proof (cost_enc b SAFE_PATH H) as L. set (x := utf8_percent_encode b SAFE_PATH false) in *. clearbody x. pose proof (shorten_size sch segs) as S.
  destruct (str_in x DOUBLE_DOT); [destruct sep; [lia|]; rewrite seg_app, seg_one; cbn [length]; lia|].
  destruct (str_in x SINGLE_DOT); [destruct sep; [lia|]; rewrite seg_app, seg_one; cbn [length]; lia|].
  rewrite seg_app, seg_one. destruct (_ && is_windows_drive_letter x) eqn:W; [|lia]. apply andb_true_iff in W as [_ W].
  destruct (firstn1_wdl x W) as (a & c & Q & _). subst x. cbn [firstn]. rewrite app_length. change (length $":") with 1. cbn [length] in *. lia.
Qed.
Fixpoint costs (l : list str) : nat := match l with [] => 0 | p :: l => cost p + 1 + costs l end.
Lemma sz_walk sch ps : Forall is_pystr ps -> forall segs, seg_size (walk sch segs ps) <= seg_size segs + costs ps.
Proof.
  induction ps as [|p ps IH]; intros H segs; [cbn [walk costs]; lia|]. inversion H as [|? ? H1 H2]; subst. destruct ps as [|p2 ps].
  - cbn [walk costs]. pose proof (sz_push sch false segs p H1). lia.
  - rewrite walk_cons by discriminate. specialize (IH H2 (push sch true segs p)). pose proof (sz_push sch true segs p H1). cbn [costs] in *. lia.
Qed.
Lemma costs_split sep s : costs (split sep s) <= cost s + 1.
Proof.
  induction s as [|c t IH]; [cbn [split costs]; rewrite cost_nil; lia|]. cbn [split]. rewrite cost_cons. destruct (c =? sep)%N.
  - cbn [costs]. rewrite cost_nil. lia.
  - destruct (split sep t) as [|p ps]; cbn [costs] in *; [rewrite cost_cons, cost_nil; lia|]. rewrite cost_cons. lia.
Qed.
Lemma costs_pieces sp p : costs (pieces sp p) <= cost p + 1.
Proof.
  unfold pieces. pose proof (costs_split 47 (norm_slash sp p)) as H. replace (cost (norm_slash sp p)) with (cost p) in H; [exact H|].
  unfold norm_slash, cost. destruct sp; [|reflexivity]. unfold replace_char. now rewrite map_length.
Qed.
Lemma sz_path u r v : is_pystr r -> flat_path E enc u r = Ok v -> size v <= size u + cost r + 1.
Proof.
  intros H Q. unfold flat_path in Q. pose proof (span_pystr (fun c => negb (is_qf c)) r H) as [P1 P2]. pose proof (cost_span (fun c => negb (is_qf c)) r) as C.
  destruct (span _ r) as [p t]. cbn [fst snd] in *. apply sz_tail in Q; [|exact P2].
  assert (PP : Forall is_pystr (pieces (is_special u) p)).
  { apply Forall_impl with (2 := pieces_ok (is_special u) p P1). intros a (A & _). exact A. }
  pose proof (sz_walk (scheme u) _ PP (path_segs u)) as W. pose proof (costs_pieces (is_special u) p). pose proof (segs_le u).
  remember (walk (scheme u) (path_segs u) (pieces (is_special u) p)) as w. assert (size (set_path (PList w) u) + path_size (path u) = size u + seg_size w) by (sz; lia). lia.
Qed.
Lemma sz_path_start u r v : is_pystr r -> flat_path_start E enc u r = Ok v -> size v <= size u + cost r + 1.
Proof.
  intros H Q. unfold flat_path_start in Q. destruct r as [|c t].
  - destruct (is_special u); [now apply sz_path|]. injection Q as <-. lia.
  - pose proof (pystr_tl _ _ H) as T. pose proof (cost_cons c t) as C. destruct (is_special u).
    + destruct (is_slash c); apply sz_path in Q; auto; lia.
    + destruct (is_qf c); [apply sz_tail in Q; auto; lia|]. destruct (c =? 47)%N; apply sz_path in Q; auto; lia.
Qed.
Lemma sz_opaque u r v : path_size (path u) = 0 -> is_pystr r -> flat_opaque E enc u r = Ok v -> size v <= size u + cost r.
Proof.
  intros HP H Q. unfold flat_opaque in Q. pose proof (span_pystr (fun c => negb (is_qf c)) r H) as [P1 P2]. pose proof (cost_span (fun c => negb (is_qf c)) r) as C.
  destruct (span _ r) as [p t]. cbn [fst snd] in *. apply sz_tail in Q; [|exact P2]. pose proof (opaque_len p P1) as L.
  assert (length (enc_opaque p) <= cost p) by (unfold cost; nia). assert (size (set_path (POpaque (enc_opaque p)) u) = size u + length (enc_opaque p)) by (sz; lia). lia.
Qed.
Lemma sz_host u a t v : is_pystr t -> flat_host E enc u a t = Ok v -> size v <= size u + cost t + 1.
Proof.
  intros H Q. unfold flat_host in Q. destruct (host_cut false a) as [h [ps|]].
  - destruct (_ =? 0); [discriminate|]. destruct (snd (host_parse E h _)) as [x|]; [|discriminate]. cbn [rbind] in Q. destruct (flat_port E (scheme u) ps) as [p|]; [|discriminate].
    cbn [rbind] in Q. apply sz_path_start in Q; [|exact H]. exact Q.
  - destruct (_ && _); [discriminate|]. destruct (snd (host_parse E h _)) as [x|]; [|discriminate]. cbn [rbind] in Q. apply sz_path_start in Q; [|exact H]. exact Q.
Qed.
Lemma split_last_eq x s a b : split_last x s = Some (a, b) -> s = a ++ x :: b.
Proof.
  revert a b. induction s as [|c t IH]; intros a b H; [discriminate|]. cbn [split_last] in H. destruct (split_last x t) as [[a' b']|].
  - injection H as <- <-. cbn [app]. f_equal. now apply IH.
  - destruct (c =? x)%N eqn:Q; [|discriminate]. apply N.eqb_eq in Q. subst. injection H as <- <-. reflexivity.
Qed.
Lemma sz_creds ui u : is_pystr ui -> size (set_creds ui u) <= size u + cost ui.
Proof.
  intros H. unfold set_creds, split_first. pose proof (span_pystr (fun c => negb (c =? 58)%N) ui H) as [P1 P2]. pose proof (cost_span (fun c => negb (c =? 58)%N) ui) as C.
  destruct (span _ ui) as [a t]. cbn [fst snd] in *. pose proof (cost_enc a SAFE_USERINFO P1) as L1. fold (enc_userinfo a) in L1.
  assert (L2 : length (enc_userinfo (tl t)) <= cost t).
  { destruct t as [|c t]; [cbn [tl]; rewrite cost_nil; exact (le_n 0)|]. cbn [tl]. rewrite cost_cons. pose proof (cost_enc t SAFE_USERINFO (pystr_tl _ _ P2)) as L. fold (enc_userinfo t) in L. lia. }
  sz. lia.
Qed.
Lemma sz_authority u r v : is_pystr r -> flat_authority E enc u r = Ok v -> size v <= size u + cost r + 1.
Proof.
  intros H Q. unfold flat_authority in Q. pose proof (span_pystr (fun c => negb (ends_auth (is_special u) c)) r H) as [P1 P2]. pose proof (cost_span (fun c => negb (ends_auth (is_special u) c)) r) as C.
  destruct (span _ r) as [a t]. cbn [fst snd] in *. destruct (split_last 64 a) as [[ui hp]|] eqn:S.
  - destruct (_ =? 0); [discriminate|]. apply split_last_eq in S. subst a. apply pystr_app in P1 as [P1 _]. apply sz_host in Q; [|exact P2]. pose proof (sz_creds ui u P1). rewrite cost_app in C. lia.
  - apply sz_host in Q; [|exact P2]. lia.
Qed.

(* ---------- file ---------- *)
Definition base_size (base : option urlrec) : nat := match base with Some b => size b | None => 0 end.
Lemma sz_file_url : size file_url = 4. Proof. reflexivity. Qed.
Lemma sz_file_host u r v : is_pystr r -> flat_file_host E enc u r = Ok v -> size v <= size u + cost r + 1.
Proof.
  intros H Q. unfold flat_file_host in Q. pose proof (span_pystr (fun c => negb (mem c $"/\?#")) r H) as [P1 P2]. pose proof (cost_span (fun c => negb (mem c $"/\?#")) r) as C.
  destruct (span _ r) as [h t]. cbn [fst snd] in *. destruct (is_windows_drive_letter h); [now apply sz_path|]. destruct h as [|c h].
  - apply sz_path_start in Q; [|exact P2]. change (size (set_host _ u)) with (size u) in Q. lia.
  - destruct (snd (host_parse E _ _)) as [x|]; [|discriminate]. cbn [rbind] in Q. apply sz_path_start in Q; [|exact P2]. change (size (set_host _ u)) with (size u) in Q. lia.
Qed.
Lemma sz_file_slash_url base r : size (file_slash_url base r file_url) <= 4 + base_size base.
Proof.
  unfold file_slash_url. destruct base as [b|]; [|rewrite sz_file_url; lia]. destruct (str_eqb (scheme b) $"file"); [|rewrite sz_file_url; lia]. cbv zeta.
  assert (B : size (set_host (uhost b) file_url) = 4) by reflexivity. destruct (path b) as [s|[|s l]] eqn:P; [rewrite B; lia|rewrite B; lia|].
  destruct (_ && _); [|rewrite B; lia]. change (path_segs (set_host (uhost b) file_url)) with (@nil str). cbn [app base_size].
  assert (seg_size [s] <= path_size (path b)) by (rewrite P; cbn [path_size]; rewrite !seg_cons; change (seg_size []) with 0; lia).
  assert (size (set_path (PList [s]) (set_host (uhost b) file_url)) = 4 + seg_size [s]) by (cbn; lia). unfold size at 2. lia.
Qed.
Lemma sz_file base r v : is_pystr r -> flat_file E base enc r = Ok v -> size v <= 4 + base_size base + cost r + 1.
Proof.
  intros H Q. unfold flat_file in Q.
  assert (NR : forall s v, is_pystr s -> flat_path E enc file_url s = Ok v -> size v <= 4 + cost s + 1).
  { intros s w Hs W. apply sz_path in W; auto. }
  assert (REL : forall b w, (match r with
    | [] => flat_path E enc (file_base_url b file_url) []
    | c :: _ => if is_qf c then flat_tail E enc (file_base_url b file_url) r
        else flat_path E enc (set_path (PList (if starts_with_windows_drive_letter r then [] else shorten_segs (scheme (set_query None (file_base_url b file_url))) (path_segs b)))
              (set_query None (file_base_url b file_url))) r end) = Ok w -> size w <= 4 + size b + cost r + 1).
  { intros b w W. assert (B : size (file_base_url b file_url) <= 4 + size b).
    { unfold file_base_url. sz. change (length (scheme file_url)) with 4. change (length (username file_url)) with 0. change (length (password file_url)) with 0. change (fragment file_url) with (@None str). cbn [opt_size]. lia. }
    destruct r as [|c t].
    - apply sz_path in W; [|constructor]. lia.
    - destruct (is_qf c); [apply sz_tail in W; auto; lia|]. apply sz_path in W; [|exact H].
      match type of W with (_ <= size ?x + _ + _) => assert (size x <= 4 + size b) end.
      { pose proof (segs_le b) as S1. pose proof (shorten_size (scheme (set_query None (file_base_url b file_url))) (path_segs b)) as S2.
        assert (S3 : seg_size (if starts_with_windows_drive_letter (c :: t) then [] else shorten_segs (scheme (set_query None (file_base_url b file_url))) (path_segs b)) <= path_size (path b)).
        { destruct (starts_with_windows_drive_letter (c :: t)); [unfold seg_size; cbn; lia|lia]. }
        set (l := if starts_with_windows_drive_letter (c :: t) then [] else _) in *. clearbody l.
        assert (Z : size (set_path (PList l) (set_query None (file_base_url b file_url))) = 4 + seg_size l) by (unfold size; cbn; lia). rewrite Z. unfold size. lia. }
      lia. }
  cbv zeta in Q. destruct r as [|c t].
  - destruct base as [b|]; [|apply NR in Q; [cbn [base_size]; lia|constructor]]. destruct (str_eqb (scheme b) $"file"); [|apply NR in Q; [lia|constructor]]. cbn [base_size]. now apply (REL b).
  - destruct (is_slash c).
    + pose proof (pystr_tl _ _ H) as T. rewrite cost_cons. unfold flat_file_slash in Q. pose proof (sz_file_slash_url base t). destruct t as [|d t].
      * apply sz_path in Q; [|constructor]. rewrite cost_nil in *. lia.
      * destruct (is_slash d); [apply sz_file_host in Q; [|now apply pystr_tl in T]; rewrite sz_file_url in Q; rewrite cost_cons; lia|]. apply sz_path in Q; auto. lia.
    + destruct base as [b|]; [|apply NR in Q; [cbn [base_size]; lia|auto]]. destruct (str_eqb (scheme b) $"file"); [|apply NR in Q; [lia|auto]]. cbn [base_size]. now apply (REL b).
Qed.

(* ---------- relative ---------- *)
Lemma size_eq sch us pw h p pa q f : size (mkurl sch us pw h p pa q f) = length sch + length us + length pw + path_size pa + opt_size q + opt_size f.
Proof. reflexivity. Qed.
Lemma base_auth_eq b : base_auth b (set_scheme (scheme b) new_url) = mkurl (scheme b) (username b) (password b) (uhost b) (port b) (PList []) None None.
Proof. reflexivity. Qed.
Lemma base_all_eq b : base_all b (set_scheme (scheme b) new_url) = mkurl (scheme b) (username b) (password b) (uhost b) (port b) (path b) (query b) None.
Proof. reflexivity. Qed.
Lemma sz_base_auth b : size (base_auth b (set_scheme (scheme b) new_url)) + path_size (path b) + opt_size (query b) + opt_size (fragment b) = size b.
Proof. rewrite base_auth_eq, size_eq. unfold size. cbn [path_size opt_size]. change (seg_size []) with 0. lia. Qed.
Lemma sz_base_all b : size (base_all b (set_scheme (scheme b) new_url)) <= size b.
Proof. rewrite base_all_eq, size_eq. unfold size. cbn [opt_size]. lia. Qed.
Lemma sz_relative b r v : is_pystr r -> flat_relative E b enc r = Ok v -> size v <= size b + cost r + 1.
Proof.
  intros H Q. unfold flat_relative in Q. cbv zeta in Q. set (u := set_scheme (scheme b) new_url) in *. pose proof (sz_base_auth b) as BA. pose proof (sz_base_all b) as BB. fold u in BA, BB.
  assert (U : size u <= size b) by (change u with (mkurl (scheme b) [] [] None None (PList []) None None); rewrite size_eq; cbn [path_size opt_size length]; change (seg_size []) with 0; unfold size; lia). destruct r as [|c t].
  - injection Q as <-. lia.
  - pose proof (pystr_tl _ _ H) as T. pose proof (cost_cons c t) as C. destruct ((c =? 47)%N || _).
    + unfold flat_relative_slash in Q. destruct t as [|d t].
      * apply sz_path in Q; [|constructor]. rewrite cost_nil in *. lia.
      * pose proof (pystr_tl _ _ T) as T'. pose proof (cost_cons d t) as C'. destruct (is_special u && is_slash d).
        { apply sz_authority in Q; [|now apply drop_pystr]. pose proof (cost_drop is_slash t). lia. }
        destruct (d =? 47)%N; [apply sz_authority in Q; auto; lia|]. apply sz_path in Q; auto. lia.
    + destruct (is_qf c); [apply sz_tail in Q; auto; lia|]. apply sz_path in Q; [|exact H].
      set (l := shorten_segs _ (path_segs b)) in Q. assert (L : seg_size l <= path_size (path b)) by (unfold l; pose proof (segs_le b); pose proof (shorten_size (scheme (set_query None (base_all b u))) (path_segs b)); lia).
      clearbody l. assert (size (set_path (PList l) (set_query None (base_all b u))) <= size b).
      { change (set_path (PList l) (set_query None (base_all b u))) with (mkurl (scheme b) (username b) (password b) (uhost b) (port b) (PList l) None None). rewrite size_eq. unfold size. cbn [path_size opt_size]. lia. }
      lia.
Qed.
Lemma sz_scheme base sch t v : is_pystr t -> flat_scheme E base enc sch t = Ok v -> size v <= length sch + 4 + base_size base + cost t + 1.
Proof.
  intros H Q. unfold flat_scheme in Q. cbv zeta in Q. assert (U : size (set_scheme sch new_url) = length sch) by (unfold new_url; sz; cbn [length]; change (seg_size []) with 0; lia).
  destruct (str_eqb sch $"file"); [apply sz_file in Q; auto; lia|]. assert (AU : forall w, flat_authority E enc (set_scheme sch new_url) (drop_while is_slash t) = Ok w -> size w <= length sch + cost t + 1).
  { intros w W. apply sz_authority in W; [|now apply drop_pystr]. pose proof (cost_drop is_slash t). lia. }
  destruct (special_scheme sch).
  - destruct base as [b|]; [|apply AU in Q; lia]. destruct (_ && _); [|apply AU in Q; lia]. apply sz_relative in Q; auto. cbn [base_size]. lia.
  - assert (O : flat_opaque E enc (set_scheme sch new_url) t = Ok v -> size v <= length sch + cost t) by (intros W; apply sz_opaque in W; auto; lia).
    destruct t as [|c r]; [apply O in Q; lia|]. destruct (c =? 47)%N; [|apply O in Q; lia]. pose proof (pystr_tl _ _ H) as T. rewrite cost_cons.
    destruct r as [|d r]; [apply sz_path in Q; [|constructor]; lia|]. destruct (d =? 47)%N; [apply sz_authority in Q; [|now apply pystr_tl in T]; rewrite cost_cons; lia|].
    apply sz_path in Q; auto. lia.
Qed.
Lemma sz_main base s v : is_pystr s -> flat_main E base enc s = Ok v -> size v <= base_size base + cost s + 5.
Proof.
  intros H Q. unfold flat_main in Q. destruct (scheme_split s) as [[sch t]|] eqn:S.
  - unfold scheme_split in S. destruct s as [|c s]; [discriminate|]. destruct (mem c ASCII_ALPHA); [|discriminate]. pose proof (span_eq is_scheme_char s) as EQ. destruct (span is_scheme_char s) as [a r] eqn:SP.
    destruct r as [|x r]; [discriminate|]. destruct (x =? 58)%N; [|discriminate]. injection S as <- <-. cbn [fst snd] in EQ.
    apply pystr_tl in H. rewrite EQ in H. apply pystr_app in H as [_ H]. apply pystr_tl in H. apply sz_scheme in Q; [|exact H].
    assert (L : length (lower (c :: a)) <= cost (c :: a)) by (unfold lower; rewrite map_length; unfold cost; nia).
    rewrite cost_cons in *. rewrite EQ, cost_app, cost_cons. lia.
  - unfold flat_no_scheme in Q. destruct base as [b|]; [|discriminate]. cbn [base_size]. destruct (has_opaque_path b).
    + destruct s as [|c s]; [discriminate|]. destruct (c =? 35)%N; [|discriminate]. injection Q as <-. pose proof (sz_frag (set_query (query b) (set_path (path b) (set_scheme (scheme b) new_url))) (c :: s) H) as F.
      assert (size (set_query (query b) (set_path (path b) (set_scheme (scheme b) new_url))) <= size b).
      { change (set_query (query b) (set_path (path b) (set_scheme (scheme b) new_url))) with (mkurl (scheme b) [] [] None None (path b) (query b) None). rewrite size_eq. unfold size. cbn [length opt_size]. lia. }
      eapply Nat.le_trans; [exact F|]. lia.
    + destruct (str_eqb (scheme b) $"file"); [apply sz_file in Q; auto; cbn [base_size] in Q; lia|]. apply sz_relative in Q; auto. lia.
Qed.
End Size.
