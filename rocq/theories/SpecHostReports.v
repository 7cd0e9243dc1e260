(** The validation errors of the URL Standard's host parser, with the opaque-host,
    IPv4 and IPv6 parsers (sections 3.5 and 3.6), and of its URL parser when the base is
    given as a string. Only the names of the errors are those of the model. *)
From Coq Require Import Ascii String.
From Coq Require Import NArith ZArith Bool Arith List.
From Verif Require Import PyStr Env HostModel UrlRecord Parser SpecText SpecHost SpecUrl SpecParser SpecReports.
Import ListNotations.
Open Scope N_scope.

(* ---------- IPv4 ---------- *)
(** "For each part of parts: [...] If result is failure, IPv4-non-numeric-part, return
    failure. If result[1] is true, IPv4-non-decimal-part." *)
Fixpoint std_ipv4_part_reports (parts : list (list N)) : list verr :=
  match parts with
  | [] => []
  | p :: t => match std_ipv4_number p with
              | None => [VIPv4NonNumeric]
              | Some (_, ve) => report ve VIPv4NonDecimal ++ std_ipv4_part_reports t
              end
  end.
Definition std_ipv4_reports (input : list N) : list verr :=
  let parts := std_strict_split 46 input [] in
  let empty_last := match last parts [] with [] => true | _ => false end in
  let parts := if empty_last then match parts with [_] => parts | _ => removelast parts end else parts in
  report empty_last VIPv4EmptyPart ++
  if (4 <? length parts)%nat then [VIPv4TooManyParts]
  else std_ipv4_part_reports parts ++
       match std_ipv4_numbers parts with
       | None => []
       | Some numbers => report (existsb (fun n => 255 <? n) numbers) VIPv4OutOfRange
       end.

(* ---------- IPv6 ---------- *)
(** the IPv6 parser of SpecHost.v with the error that is reported on failure *)
Inductive named (A : Type) := Got (a : A) | Report (v : verr).
Arguments Got {A} _. Arguments Report {A} _.
Definition got {A} (x : named A) : option A := match x with Got a => Some a | Report _ => None end.

Fixpoint named_v6_ipv4_piece (rest : list N) (piece : option N) : named (option N * list N) :=
  match rest with
  | c :: t =>
      if std_ascii_digit c then
        let number := c - 48 in
        match piece with
        | None => named_v6_ipv4_piece t (Some number)
        | Some p => if p =? 0 then Report VIPv4inIPv6InvalidCP
                    else let p' := p * 10 + number in
                         if 255 <? p' then Report VIPv4inIPv6OutOfRange else named_v6_ipv4_piece t (Some p')
        end
      else Got (piece, rest)
  | [] => Got (piece, [])
  end.
Fixpoint named_v6_ipv4 (fuel : nat) (rest : list N) (seen idx : nat) (a : list N) : named (nat * list N) :=
  match fuel with
  | O => Report VUndefined
  | S f =>
      match rest with
      | [] => if (seen =? 4)%nat then Got (idx, a) else Report VIPv4inIPv6TooFewParts
      | c :: t =>
          let digits :=
            if (0 <? seen)%nat
            then if (c =? 46) && (seen <? 4)%nat then Some t else None
            else Some rest in
          match digits with
          | None => Report VIPv4inIPv6InvalidCP
          | Some r =>
              match r with
              | [] => Report VIPv4inIPv6InvalidCP
              | d :: _ =>
                  if std_ascii_digit d then
                    match named_v6_ipv4_piece r None with
                    | Got (Some p, r') =>
                        let a' := std_set a idx (fun x => x * 256 + p) in
                        let seen' := S seen in
                        named_v6_ipv4 f r' seen'
                          (if (seen' =? 2)%nat || (seen' =? 4)%nat then S idx else idx) a'
                    | Got (None, _) => Report VUndefined
                    | Report v => Report v
                    end
                  else Report VIPv4inIPv6InvalidCP
              end
          end
      end
  end.
Fixpoint named_v6_main (fuel : nat) (rest : list N) (idx : nat) (compress : option nat) (a : list N)
  : named (nat * option nat * list N) :=
  match fuel with
  | O => Report VUndefined
  | S f =>
      match rest with
      | [] => Got (idx, compress, a)
      | c :: t =>
          if (idx =? 8)%nat then Report VIPv6TooManyPieces
          else if c =? 58 then
            match compress with
            | Some _ => Report VIPv6MultipleCompression
            | None => named_v6_main f t (S idx) (Some (S idx)) a
            end
          else
            let '(value, len, r) := std_v6_hex 4 rest 0 0 in
            match r with
            | [] => named_v6_main f [] (S idx) compress (std_set a idx (fun _ => value))
            | x :: r' =>
                if x =? 46 then
                  if (len =? 0)%nat then Report VIPv4inIPv6InvalidCP
                  else if (6 <? idx)%nat then Report VIPv4inIPv6TooManyPieces
                  else match named_v6_ipv4 (S (length rest)) rest 0 idx a with
                       | Got (idx', a') => Got (idx', compress, a')
                       | Report v => Report v
                       end
                else if x =? 58 then
                  match r' with
                  | [] => Report VIPv6InvalidCP
                  | _ => named_v6_main f r' (S idx) compress (std_set a idx (fun _ => value))
                  end
                else Report VIPv6InvalidCP
            end
      end
  end.
Definition named_ipv6_parse (input : list N) : named (list N) :=
  let start :=
    match input with
    | [] => Some (input, 0%nat, None)
    | c :: t =>
        if c =? 58 then
          match t with
          | d :: t' => if d =? 58 then Some (t', 1%nat, Some 1%nat) else None
          | [] => None
          end
        else Some (input, 0%nat, None)
    end in
  match start with
  | None => Report VIPv6InvalidCompression
  | Some (rest, idx, compress) =>
      match named_v6_main (S (length rest)) rest idx compress (repeat 0 8) with
      | Report v => Report v
      | Got (idx, compress, a) =>
          match compress with
          | Some k => Got (std_v6_swap (idx - k) 7 k a)
          | None => if (idx =? 8)%nat then Got a else Report VIPv6TooFewPieces
          end
      end
  end.
(** it is the parser of SpecHost.v *)
Lemma named_piece_got rest : forall p, got (named_v6_ipv4_piece rest p) = std_v6_ipv4_piece rest p.
Proof.
  induction rest as [|c t IH]; intros p; [reflexivity|]. cbn [named_v6_ipv4_piece std_v6_ipv4_piece]. destruct (std_ascii_digit c); [|reflexivity].
  destruct p as [p|]; [|apply IH]. destruct (p =? 0); [reflexivity|]. cbv zeta. destruct (255 <? p * 10 + (c - 48)); [reflexivity|apply IH].
Qed.
Lemma named_ipv4_got fuel : forall rest seen idx a, got (named_v6_ipv4 fuel rest seen idx a) = std_v6_ipv4 fuel rest seen idx a.
Proof.
  induction fuel as [|f IH]; intros rest seen idx a; [reflexivity|]. cbn [named_v6_ipv4 std_v6_ipv4]. destruct rest as [|c t]; [destruct (seen =? 4)%nat; reflexivity|].
  cbv zeta. destruct (if (0 <? seen)%nat then if (c =? 46) && (seen <? 4)%nat then Some t else None else Some (c :: t)) as [[|d r]|]; try reflexivity.
  destruct (std_ascii_digit d); [|reflexivity]. rewrite <- named_piece_got. destruct (named_v6_ipv4_piece (d :: r) None) as [[[p|] r']|v]; cbn [got]; try reflexivity. apply IH.
Qed.
Lemma named_main_got fuel : forall rest idx k a, got (named_v6_main fuel rest idx k a) = std_v6_main fuel rest idx k a.
Proof.
  induction fuel as [|f IH]; intros rest idx k a; [reflexivity|]. cbn [named_v6_main std_v6_main]. destruct rest as [|c t]; [reflexivity|].
  destruct (idx =? 8)%nat; [reflexivity|]. destruct (c =? 58); [destruct k; [reflexivity|apply IH]|].
  destruct (std_v6_hex 4 (c :: t) 0 0) as [[v len] [|x r']]; [apply IH|]. destruct (x =? 46).
  - destruct (len =? 0)%nat; [reflexivity|]. destruct (6 <? idx)%nat; [reflexivity|]. rewrite <- named_ipv4_got.
    destruct (named_v6_ipv4 (S (length (c :: t))) (c :: t) 0 idx a) as [[i a']|v']; reflexivity.
  - destruct (x =? 58); [|reflexivity]. destruct r'; [reflexivity|apply IH].
Qed.
Lemma named_ipv6_got s : got (named_ipv6_parse s) = std_ipv6_parse s.
Proof.
  unfold named_ipv6_parse, std_ipv6_parse. cbv zeta.
  destruct (match s with
    | [] => Some (s, 0%nat, None)
    | c :: t => if c =? 58 then match t with d :: t' => if d =? 58 then Some (t', 1%nat, Some 1%nat) else None | [] => None end else Some (s, 0%nat, None)
    end) as [[[r i] k]|]; [|reflexivity].
  rewrite <- named_main_got. destruct (named_v6_main (S (length r)) r i k (repeat 0 8)) as [[[j k'] a]|v]; cbn [got]; [|reflexivity].
  destruct k' as [k'|]; [reflexivity|]. destruct (j =? 8)%nat; reflexivity.
Qed.

(* ---------- hosts ---------- *)
(** "If input contains a code point that is not a URL code point and not U+0025 (%),
    invalid-URL-unit. If input contains a U+0025 (%) and the two code points following it
    are not ASCII hex digits, invalid-URL-unit." *)
Fixpoint std_bad_escape (s : list N) : bool :=
  match s with [] => false | c :: t => ((c =? 37) && negb (std_two_hex t)) || std_bad_escape t end.
Definition std_opaque_reports (s : list N) : list verr :=
  report (existsb (fun c => negb (std_url_code_point c) && negb (c =? 37)) s) VInvalidURLUnit
  ++ report (std_bad_escape s) VInvalidURLUnit.
Definition std_host_reports (to_ascii : list N -> option (list N)) (input : list N) (is_opaque : bool) : list verr :=
  match input with
  | 91 :: t =>
      match rev t with
      | 93 :: r => match named_ipv6_parse (rev r) with Got _ => [] | Report v => [v] end
      | _ => [VIPv6Unclosed]
      end
  | _ =>
      if is_opaque then
        if existsb std_forbidden_host input then [VHostInvalidCP] else std_opaque_reports input
      else
        match to_ascii (std_utf8_decode (std_percent_decode (std_utf8_encode input))) with
        | None => [VDomainToAscii]
        | Some d =>
            if existsb std_forbidden_domain d then [VDomainInvalidCP]
            else if std_ends_in_number d then std_ipv4_reports d else []
        end
  end.
Definition std_host_log (to_ascii : list N -> option (list N)) (h : list N) (o : bool) : list verr * option host :=
  (std_host_reports to_ascii h o, std_host_parse to_ascii h o).

(* ---------- the URL parser, base given as a string or a record ---------- *)
Inductive std_url_reports (hp : list N -> bool -> list verr * option host) (s : list N) : base_arg -> list verr -> Prop :=
| sur_none l : std_parse_reports hp None s l -> std_url_reports hp s BNone l
| sur_rec b l : std_parse_reports hp (Some b) s l -> std_url_reports hp s (BRec b) l
| sur_str t b l1 l2 : std_parse_reports hp None t l1 -> std_basic_parse (fun h o => snd (hp h o)) None t (Some b) ->
    std_parse_reports hp (Some b) s l2 -> std_url_reports hp s (BStr t) (l1 ++ l2)
| sur_fail t l : std_parse_reports hp None t l -> std_basic_parse (fun h o => snd (hp h o)) None t None -> std_url_reports hp s (BStr t) l.

(** The code logs without a name (only as a message) when it gives up on an address that
    it has already reported on, and may fail to format the message about a number; the
    names of the errors in a log: *)
Definition named_errors (l : list verr) : list verr :=
  flat_map (fun v => match v with VUndefined => [] | VIPv4OutOfRangeRaised => [VIPv4OutOfRange] | v => [v] end) l.

(** not the inputs of [file_pipe_host], neither as the URL nor as the base *)
Definition no_pipe_host (hp : list N -> bool -> option host) (base : base_arg) (s : list N) : Prop :=
  match base with
  | BNone => file_pipe_host None s = false
  | BRec b => file_pipe_host (Some b) s = false
  | BStr t => file_pipe_host None t = false /\ forall b, std_basic_parse hp None t (Some b) -> file_pipe_host (Some b) s = false
  end.
