(** Hosts: class Host (parse.py:582-706), IDNA (958-1165), IPv4Address
    (1168-1307) and IPv6Address (1310-1549). *)
From Coq Require Import Ascii String.
From Coq Require Import NArith ZArith Bool Arith List.
From Verif Require Import PyStr PyInt Codec Env.
Import ListNotations.
Open Scope N_scope.

(** parse.py:1645 [str | int | tuple[int, ...]] *)
Inductive host :=
| HStr (s : str)            (* domain, opaque host or empty host *)
| HIPv4 (n : N)
| HIPv6 (pieces : list N).

(* ---------- IDNA ---------- *)

Definition CHECK_HYPHENS_ERRORS : N := 8 + 16 + 32.      (* parse.py:965-969 *)
Definition VERIFY_DNS_LENGTH_ERRORS : N := 1 + 2 + 4.    (* parse.py:971-975 *)

(** parse.py:1018-1100 [IDNA.domain_to_ascii] *)
Definition domain_to_ascii (E : env) (be_strict : bool) (domain : str) : W str :=
  let options := 4 + 8 + 16 + (if be_strict then 2 else 0) in
  let allowed := if be_strict then CHECK_HYPHENS_ERRORS
                 else N.lor CHECK_HYPHENS_ERRORS VERIFY_DNS_LENGTH_ERRORS in
  match icu_to_ascii E options domain with
  | IcuFail _ => wfail VDomainToAscii EIDNA
  | IcuOk errors dest =>
      if negb (N.ldiff errors allowed =? 0) then wfail VDomainToAscii EHostParse
      else match dest with
           | [] => wfail VDomainToAscii EHostParse
           | _ => wret dest
           end
  end.

(** parse.py:1103-1165 [IDNA.domain_to_unicode] *)
Definition domain_to_unicode (E : env) (be_strict : bool) (domain : str) : W str :=
  let options := 4 + 8 + 32 + (if be_strict then 2 else 0) in
  let allowed := N.lor CHECK_HYPHENS_ERRORS VERIFY_DNS_LENGTH_ERRORS in
  match icu_to_unicode E options domain with
  | IcuFail _ => wfail VDomainToUnicode EIDNA
  | IcuOk errors dest =>
      (if negb (N.ldiff errors allowed =? 0) then wlog VDomainToUnicode else wret tt)
      ~;; wret dest
  end.

(* ---------- IPv4 ---------- *)

(** parse.py:1170-1193 [IPv4Address._parse_ipv4_number] *)
Definition parse_ipv4_number (E : env) (address : str) : Z * bool :=
  match address with
  | [] => ((-1)%Z, true)
  | _ =>
      let '(rest, r, ve) :=
        match address with
        | z :: x :: t =>
            if z =? 48
            then if (x =? 120) || (x =? 88) then (t, 16, true) else (x :: t, 8, true)
            else (address, 10, false)
        | _ => (address, 10, false)
        end in
      match rest with
      | [] => (0%Z, true)
      | _ => match e_int E rest r with
             | Some z => (z, ve)
             | None => ((-1)%Z, true)
             end
      end
  end.

(** [parts = address.split("."); if len(parts[-1]) == 0 and len(parts) > 1: del parts[-1]] *)
Definition drop_last_empty (parts : list str) : list str :=
  match last parts [] with
  | [] => if (1 <? length parts)%nat then removelast parts else parts
  | _ => parts
  end.

(** parse.py:1196-1210 [IPv4Address.is_ends_in_a_number] *)
Definition is_ends_in_a_number (E : env) (address : str) : bool :=
  let parts := split 46 address in
  let check (parts : list str) :=
    let l := last parts [] in
    (negb (length l =? 0)%nat && forallb (fun c => mem c ASCII_DIGITS) l)
    || (0 <=? fst (parse_ipv4_number E l))%Z in
  match last parts [] with
  | [] => if (length parts =? 1)%nat then false else check (removelast parts)
  | _ => check parts
  end.

(** parse.py:1236-1258: the loop over the parts *)
Fixpoint ipv4_numbers (E : env) (parts : list str) : W (list N) :=
  match parts with
  | [] => wret []
  | part :: t =>
      let result := parse_ipv4_number E part in
      if (fst result <? 0)%Z then wfail VIPv4NonNumeric EIPv4
      else (if snd result then wlog VIPv4NonDecimal else wret tt)
           ~;; ns <~ ipv4_numbers E t ;; wret (Z.to_N (fst result) :: ns)
  end.

(** parse.py:1296-1297; [k] is 3 - counter (never negative: at most 4 numbers) *)
Fixpoint ipv4_sum (ns : list N) (k : N) : N :=
  match ns with
  | [] => 0
  | n :: t => n * 256 ^ k + ipv4_sum t (k - 1)
  end.

(** parse.py:1213-1298 [IPv4Address.parse]. The messages containing
    [numbers] raise ValueError when a number exceeds the int/str conversion
    limit: for log.info/log.error only when a ValidityState was passed (eager
    formatting; the entry's type is recorded first, parse.py:3046-3050), for the
    raised exception always. *)
Definition ipv4_parse (E : env) (address : str) : W N :=
  let parts := split 46 address in
  (match last parts [] with [] => wlog VIPv4EmptyPart | _ => wret tt end)
  ~;;
  let parts := drop_last_empty parts in
  if (4 <? length parts)%nat then wfail VIPv4TooManyParts EIPv4
  else
    numbers <~ ipv4_numbers E parts ;;
    let unprintable := existsb (repr_fails E) numbers in
    let format_fails := has_validity E && unprintable in
    let lastn := last numbers 0 in
    (if existsb (fun x => 255 <? x) numbers
     then if format_fails then wfail VIPv4OutOfRangeRaised EValue else wlog VIPv4OutOfRange
     else wret tt)
    ~;;
    if existsb (fun x => 255 <? x) (removelast numbers) && (lastn <=? 255)
    then wfail VUndefined (if unprintable then EValue else EIPv4)
    else if 256 ^ (5 - N.of_nat (length numbers)) <=? lastn
    then wfail VUndefined (if unprintable then EValue else EIPv4)
    else wret (lastn + ipv4_sum (removelast numbers) 3).

(** parse.py:1301-1307 [IPv4Address.serialize] *)
Fixpoint ipv4_octets (k : nat) (n : N) (output : list str) : list str :=
  match k with
  | O => output
  | S k' => ipv4_octets k' (n / 256) (dec_str (n mod 256) :: output)
  end.
Definition ipv4_serialize (address : N) : str := join $"." (ipv4_octets 4 address []).

(* ---------- IPv6 ---------- *)

(** [l[i] = v]; None is IndexError *)
Fixpoint set_nth (i : nat) (v : N) (l : list N) : option (list N) :=
  match l, i with
  | [], _ => None
  | _ :: t, O => Some (v :: t)
  | x :: t, S i' => match set_nth i' v t with Some t' => Some (x :: t') | None => None end
  end.

Definition of_opt {A} (e : exc) (o : option A) : W A :=
  match o with Some a => wret a | None => wraise e end.

(** [[int(x) for x in xs]] *)
Fixpoint ints (E : env) (xs : list str) : option (list N) :=
  match xs with
  | [] => Some []
  | x :: t => match e_int E x 10, ints E t with
              | Some z, Some r => Some (Z.to_N z :: r)
              | _, _ => None
              end
  end.

(** parse.py:1424-1431 *)
Definition bad_ipv4_piece (x : str) : bool :=
  (length x =? 0)%nat
  || existsb (fun y => negb (mem y ASCII_DIGITS)) x
  || ((2 <=? length x)%nat && match x with z :: _ => z =? 48 | [] => false end).

(** State of the loop at parse.py:1336. [previous] is only ever compared with
    ':', so Python's [None] and [""] are both [None] here. *)
Record v6state := {
  v6_addr : list N; v6_index : nat; v6_compress : option nat;
  v6_piece : str; v6_prev : option N }.

(** parse.py:1385-1483: a complete, non-empty piece. *)
Definition ipv6_piece (E : env) (c : cp) (st : v6state) : W v6state :=
  let piece := v6_piece st in
  if negb (mem 46 piece) then
    if (4 <? length piece)%nat || existsb (fun x => negb (mem x ASCII_HEX_DIGITS)) piece
    then wfail VIPv6InvalidCP EIPv6
    else
      v <~ of_opt EValue (e_int E piece 16) ;;
      a <~ of_opt EIndex (set_nth (v6_index st) (Z.to_N v) (v6_addr st)) ;;
      wret {| v6_addr := a; v6_index := S (v6_index st); v6_compress := v6_compress st;
              v6_piece := []; v6_prev := c |}
  else if (6 <? v6_index st)%nat then wfail VIPv4inIPv6TooManyPieces EIPv6
  else
    let ps := split 46 piece in
    if (4 <? length ps)%nat || existsb bad_ipv4_piece ps
    then wfail VIPv4inIPv6InvalidCP EIPv6
    else
      ns <~ of_opt EValue (ints E ps) ;;
      if existsb (fun n => 255 <? n) ns then wfail VIPv4inIPv6OutOfRange EIPv6
      else if (length ps <? 4)%nat then wfail VIPv4inIPv6TooFewParts EIPv6
      else
        a <~ of_opt EIndex (set_nth (v6_index st) (nth 0 ns 0 * 256 + nth 1 ns 0) (v6_addr st)) ;;
        a <~ of_opt EIndex (set_nth (S (v6_index st)) (nth 2 ns 0 * 256 + nth 3 ns 0) a) ;;
        wret {| v6_addr := a; v6_index := S (S (v6_index st)); v6_compress := v6_compress st;
                v6_piece := []; v6_prev := c |}.

(** parse.py:1352-1483: the loop body for [c] = ':' or EOF. The boolean is
    true for [break]. *)
Definition ipv6_sep (E : env) (c : cp) (st : v6state) : W (v6state * bool) :=
  let prev_colon := isc (v6_prev st) 58 in
  if prev_colon && isc c 58 then
    match v6_compress st with
    | Some _ => wfail VIPv6MultipleCompression EIPv6
    | None => wret ({| v6_addr := v6_addr st; v6_index := S (v6_index st);
                       v6_compress := Some (S (v6_index st));
                       v6_piece := v6_piece st; v6_prev := v6_prev st |}, false)
    end
  else if prev_colon && iseof c then
    match v6_compress st with
    | Some k => if (v6_index st =? k)%nat then wret (st, true) else wfail VIPv6InvalidCP EIPv6
    | None => wfail VIPv6InvalidCP EIPv6
    end
  else match v6_piece st with
       | [] => wret ({| v6_addr := v6_addr st; v6_index := S (v6_index st);
                        v6_compress := v6_compress st; v6_piece := []; v6_prev := c |}, false)
       | _ => st' <~ ipv6_piece E c st ;; wret (st', false)
       end.

(** parse.py:1336-1483 [for c in cpstream(address[start:])] *)
Fixpoint ipv6_loop (E : env) (rest : str) (st : v6state) : W v6state :=
  if (8 <=? v6_index st)%nat then wfail VIPv6TooManyPieces EIPv6
  else
    match rest with
    | [] => r <~ ipv6_sep E None st ;; wret (fst r)
    | c :: t =>
        if negb (c =? 58)
        then ipv6_loop E t {| v6_addr := v6_addr st; v6_index := v6_index st;
                              v6_compress := v6_compress st;
                              v6_piece := v6_piece st ++ [c]; v6_prev := Some c |}
        else r <~ ipv6_sep E (Some c) st ;; ipv6_loop E t (fst r)
    end.

(** parse.py:1488-1497; [while piece_index != 0 and swaps > 0] *)
Fixpoint ipv6_swaps (swaps piece_index compress : nat) (l : list N) : option (list N) :=
  match swaps with
  | O => Some l
  | S s' =>
      if (piece_index =? 0)%nat then Some l
      else
        let j := (compress + swaps - 1)%nat in
        match nth_error l piece_index, nth_error l j with
        | Some x, Some y =>
            match set_nth piece_index y l with
            | Some l1 => match set_nth j x l1 with
                         | Some l2 => ipv6_swaps s' (piece_index - 1) compress l2
                         | None => None
                         end
            | None => None
            end
        | _, _ => None
        end
  end.

(** parse.py:1312-1508 [IPv6Address.parse] *)
Definition ipv6_parse (E : env) (address : str) : W (list N) :=
  let zeros := repeat 0 8 in
  let start : W (str * v6state) :=
    if starts_with $":" address
    then if starts_with $"::" address
         then wret (skipn 2 address,
                    {| v6_addr := zeros; v6_index := 1; v6_compress := Some 1%nat;
                       v6_piece := []; v6_prev := None |})
         else wfail VIPv6InvalidCompression EIPv6
    else wret (address, {| v6_addr := zeros; v6_index := 0; v6_compress := None;
                           v6_piece := []; v6_prev := None |}) in
  s <~ start ;;
  st <~ ipv6_loop E (fst s) (snd s) ;;
  match v6_compress st with
  | Some k => of_opt EIndex (ipv6_swaps (v6_index st - k) 7 k (v6_addr st))
  | None => if (v6_index st =? 8)%nat then wret (v6_addr st) else wfail VIPv6TooFewPieces EIPv6
  end.

(** parse.py:1516-1532: start of the first longest run of at least two zeros *)
Fixpoint ipv6_longest (vals : list N) (i : nat) (compress zstart : option nat)
    (maxlen zlen : nat) : option nat :=
  match vals with
  | [] => if (maxlen <? zlen)%nat then zstart else compress
  | v :: t =>
      if v =? 0
      then ipv6_longest t (S i) compress
             (match zstart with None => Some i | Some _ => zstart end) maxlen (S zlen)
      else if (maxlen <? zlen)%nat then ipv6_longest t (S i) zstart None zlen 0
           else ipv6_longest t (S i) compress None maxlen 0
  end.

Definition onat_eqb (o : option nat) (n : nat) : bool :=
  match o with Some m => (m =? n)%nat | None => false end.

(** parse.py:1535-1548 *)
Fixpoint ipv6_out (vals : list N) (i : nat) (compress : option nat) (ignore0 : bool) : str :=
  match vals with
  | [] => []
  | v :: t =>
      if ignore0 && (v =? 0) then ipv6_out t (S i) compress true
      else if onat_eqb compress i
           then (if (i =? 0)%nat then $"::" else $":") ++ ipv6_out t (S i) compress true
           else hex_str v ++ (if (i =? 7)%nat then [] else $":") ++ ipv6_out t (S i) compress false
  end.

(** parse.py:1511-1549 [IPv6Address.serialize]. The assertion
    [len(address) == 8] is not modelled: every address produced by the parser has
    eight pieces (C19), and C29 proves it for every URL record. *)
Definition ipv6_serialize (address : list N) : str :=
  ipv6_out address 0 (ipv6_longest address 0 None None 1 0) false.

(* ---------- Host ---------- *)

(** parse.py:586-621 [Host._parse_opaque_host] *)
Definition parse_opaque_host (h : str) : W str :=
  if existsb (fun c => mem c FORBIDDEN_HOST_CODE_POINT) h
  then wfail VHostInvalidCP EHostParse
  else (match is_url_units $"%" [] h with
        | Some _ => wlog VInvalidURLUnit
        | None => wret tt
        end)
       ~;; wret (utf8_percent_encode h SAFE_C0_CONTROL false).

(** parse.py:624-688 [Host.parse] *)
Definition host_parse (E : env) (h : str) (is_not_special : bool) : W host :=
  match h with
  | [] => wret (HStr [])
  | c :: t =>
      if c =? 91 then
        if ends_with_char h 93
        then a <~ ipv6_parse E (removelast t) ;; wret (HIPv6 a)
        else wfail VIPv6Unclosed EIPv6
      else if is_not_special then s <~ parse_opaque_host h ;; wret (HStr s)
      else
        let domain := utf8_decode (string_percent_decode h) in
        ascii_domain <~ domain_to_ascii E false domain ;;
        if existsb (fun c => mem c FORBIDDEN_DOMAIN_CODE_POINT) ascii_domain
        then wfail VDomainInvalidCP EHostParse
        else if is_ends_in_a_number E ascii_domain
             then n <~ ipv4_parse E ascii_domain ;; wret (HIPv4 n)
             else wret (HStr ascii_domain)
  end.

(** parse.py:691-706 [Host.serialize] *)
Definition host_serialize (h : host) : str :=
  match h with
  | HStr s => s
  | HIPv4 n => ipv4_serialize n
  | HIPv6 a => $"[" ++ ipv6_serialize a ++ $"]"
  end.
