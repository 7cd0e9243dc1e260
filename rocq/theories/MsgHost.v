(** The host parsers of HostModel.v with the texts of their log calls and exceptions (parse.py:582-688,
    1018-1165, 1213-1298, 1312-1508). *)
From Coq Require Import Ascii String.
From Coq Require Import NArith ZArith Bool Arith List.
From Verif Require Import PyStr PyInt Codec Env HostModel UrlRecord Parser Repr Idna Message.
Import ListNotations.
Open Scope N_scope.

(** U+2019 *)
Definition apos : str := [8217].

Section Host.
Context (X : menv).
Local Notation E := (m_env X).

(** parse.py:1018-1100, and error.py:28-29: IDNAError adds " error_code=" and the repr of the error code to
    its text. The code has error_code=%r; as the environment gives the repr of the error code (which is not a
    str or int), the format is %s here. *)
Definition m_domain_to_ascii (be_strict : bool) (domain : str) : MW str :=
  let options := 4 + 8 + 16 + (if be_strict then 2 else 0) in
  let allowed := if be_strict then CHECK_HYPHENS_ERRORS
                 else N.lor CHECK_HYPHENS_ERRORS VERIFY_DNS_LENGTH_ERRORS in
  match icu_to_ascii E options domain with
  | IcuFail errors =>
      mw_fail X $"domain-to-ASCII: Unicode ToASCII failed: domain=%r errors=0x%04X error_code=%s"
        [PStr domain; PInt errors; PStr (m_icu_code X options domain)]
        EIDNA $"Unicode ToASCII failed: domain=%r errors=0x%04X error_code=%s"
        [PStr domain; PInt errors; PStr (m_icu_code X options domain)]
  | IcuOk all dest =>
      let errors := N.ldiff all allowed in
      if negb (errors =? 0) then
        mw_fail X $"domain-to-ASCII: Unicode ToASCII records an error: domain=%r errors=%s (0x%04X)"
          [PStr domain; PStr (errors_to_string errors); PInt errors]
          EHostParse $"Unicode ToASCII records an error: domain=%r errors=%s (0x%04X)"
          [PStr domain; PStr (errors_to_string errors); PInt errors]
      else match dest with
           | [] => mw_fail X $"domain-to-ASCII: Unicode ToASCII returns the empty string: %r" [PStr domain]
                     EHostParse $"Unicode ToASCII returns the empty string: %r" [PStr domain]
           | _ => mw_ret dest
           end
  end.

(** parse.py:1103-1165 *)
Definition m_domain_to_unicode (be_strict : bool) (domain : str) : MW str :=
  let options := 4 + 8 + 32 + (if be_strict then 2 else 0) in
  let allowed := N.lor CHECK_HYPHENS_ERRORS VERIFY_DNS_LENGTH_ERRORS in
  match icu_to_unicode E options domain with
  | IcuFail errors =>
      mw_fail X $"domain-to-Unicode: Unicode ToUnicode failed: domain=%r errors=0x%04X error_code=%s"
        [PStr domain; PInt errors; PStr (m_icu_code X options domain)]
        EIDNA $"Unicode ToUnicode failed: domain=%r errors=0x%04X error_code=%s"
        [PStr domain; PInt errors; PStr (m_icu_code X options domain)]
  | IcuOk all dest =>
      let errors := N.ldiff all allowed in
      (if negb (errors =? 0) then
         mw_note X $"domain-to-Unicode: Unicode ToUnicode records an error: domain=%r errors=%s (0x%04X)"
           [PStr domain; PStr (errors_to_string errors); PInt errors]
       else mw_ret tt)
      >w mw_ret dest
  end.

(** parse.py:1236-1258 *)
Fixpoint m_ipv4_numbers (address : str) (parts : list str) : MW (list N) :=
  match parts with
  | [] => mw_ret []
  | part :: t =>
      let result := parse_ipv4_number E part in
      if (fst result <? 0)%Z then
        mw_fail X $"IPv4-non-numeric-part: IPv4 address part is not numeric: %r in %r" [PStr part; PStr address]
          EIPv4 $"IPv4 address part is not numeric: %r in %r" [PStr part; PStr address]
      else (if snd result then
              mw_note X $"IPv4-non-decimal-part: IPv4 address contains numbers expressed using hexadecimal or octal digits: %r in %r"
                [PStr part; PStr address]
            else mw_ret tt)
           >w (ns <w m_ipv4_numbers address t ;; mw_ret (Z.to_N (fst result) :: ns))
  end.

(** parse.py:1213-1298 *)
Definition m_ipv4_parse (address : str) : MW N :=
  let parts := split 46 address in
  (match last parts [] with
   | [] => mw_note X $"IPv4-empty-part: IPv4 address ends with a U+002E (.): %r" [PStr address]
   | _ => mw_ret tt
   end)
  >w
  (let parts := drop_last_empty parts in
   if (4 <? length parts)%nat then
     mw_fail X $"IPv4-too-many-parts: IPv4 address does not consist of exactly 4 parts: %r" [PStr address]
       EIPv4 $"IPv4 address does not consist of exactly 4 parts: %r" [PStr address]
   else
     numbers <w m_ipv4_numbers address parts ;;
     let numbers_obj := PSeq false (map PInt numbers) in
     let lastn := last numbers 0 in
     (if existsb (fun x => 255 <? x) numbers
      then mw_note X $"IPv4-out-of-range-part: IPv4 address part exceeds 255: %r (%r)" [PStr address; numbers_obj]
      else mw_ret tt)
     >w
     (if existsb (fun x => 255 <? x) (removelast numbers) && (lastn <=? 255) then
        mw_fail X $"any part but the last part of the IPv4 address is greater than 255: %r (%r)" [PStr address; numbers_obj]
          EIPv4 $"any part but the last part of the IPv4 address is greater than 255: %r (%r)" [PStr address; numbers_obj]
      else
        let limit := 256 ^ (5 - N.of_nat (length numbers)) in
        if limit <=? lastn then
          mw_fail X $"last part of the IPv4 address is greater than or equal to %d: %r (%r)" [PInt limit; PStr address; numbers_obj]
            EIPv4 $"last part of the IPv4 address is greater than or equal to %s: %r (%r)" [PInt limit; PStr address; numbers_obj]
        else mw_ret (lastn + ipv4_sum (removelast numbers) 3))).

Definition mw_opt {A} (e : exc) (o : option A) : MW A :=
  match o with Some a => mw_ret a | None => mw_exc e end.

(** parse.py:1385-1483 *)
Definition m_ipv6_piece (address : str) (c : cp) (st : v6state) : MW v6state :=
  let piece := v6_piece st in
  if negb (mem 46 piece) then
    if (4 <? length piece)%nat || existsb (fun x => negb (mem x ASCII_HEX_DIGITS)) piece then
      mw_fail X $"IPv6-invalid-code-point: IPv6 address contains a code point that is neither an ASCII hex digit nor a U+003A (:): %r in %r"
        [PStr piece; PStr address]
        EIPv6 $"IPv6 address contains a code point that is neither an ASCII hex digit nor a U+003A (:): %r in %r"
        [PStr piece; PStr address]
    else
      v <w mw_opt EValue (e_int E piece 16) ;;
      a <w mw_opt EIndex (set_nth (v6_index st) (Z.to_N v) (v6_addr st)) ;;
      mw_ret {| v6_addr := a; v6_index := S (v6_index st); v6_compress := v6_compress st;
                v6_piece := []; v6_prev := c |}
  else if (6 <? v6_index st)%nat then
    mw_fail X $"IPv4-in-IPv6-too-many-pieces: IPv6 address with IPv4 address syntax: IPv6 address has more than 6 pieces: %r"
      [PStr address]
      EIPv6 $"IPv6 address with IPv4 address syntax: IPv6 address has more than 6 pieces: %r" [PStr address]
  else
    let ps := split 46 piece in
    if (4 <? length ps)%nat || existsb bad_ipv4_piece ps then
      mw_fail X $"IPv4-in-IPv6-invalid-code-point: IPv6 address with IPv4 address syntax: IPv4 part is empty or contains a non-ASCII digit / IPv4 part contains a leading 0 / there are too many IPv4 parts: %r in %r"
        [PStr piece; PStr address]
        EIPv6 $"IPv6 address with IPv4 address syntax: IPv4 part is empty or contains a non-ASCII digit / IPv4 part contains a leading 0 / there are too many IPv4 parts: %r in %r"
        [PStr piece; PStr address]
    else
      ns <w mw_opt EValue (ints E ps) ;;
      if existsb (fun n => 255 <? n) ns then
        mw_fail X $"IPv4-in-IPv6-out-of-range-part: IPv6 address with IPv4 address syntax: IPv4 part exceeds 255: %r in %r"
          [PStr piece; PStr address]
          EIPv6 $"IPv6 address with IPv4 address syntax: IPv4 part exceeds 255: %r in %r" [PStr piece; PStr address]
      else if (length ps <? 4)%nat then
        mw_fail X $"IPv4-in-IPv6-too-few-parts: IPv6 address with IPv4 address syntax: IPv4 address contains too few parts: %r in %r"
          [PStr piece; PStr address]
          EIPv6 $"IPv6 address with IPv4 address syntax: IPv4 address contains too few parts: %r in %r" [PStr piece; PStr address]
      else
        a <w mw_opt EIndex (set_nth (v6_index st) (nth 0 ns 0 * 256 + nth 1 ns 0) (v6_addr st)) ;;
        a <w mw_opt EIndex (set_nth (S (v6_index st)) (nth 2 ns 0 * 256 + nth 3 ns 0) a) ;;
        mw_ret {| v6_addr := a; v6_index := S (S (v6_index st)); v6_compress := v6_compress st;
                  v6_piece := []; v6_prev := c |}.

(** parse.py:1352-1483 *)
Definition m_ipv6_ends {A} (address : str) : MW A :=
  mw_fail X $"IPv6-invalid-code-point: IPv6 address unexpectedly ends: %r" [PStr address]
    EIPv6 $"IPv6 address unexpectedly ends: %r" [PStr address].
Definition m_ipv6_sep (address : str) (c : cp) (st : v6state) : MW (v6state * bool) :=
  let prev_colon := isc (v6_prev st) 58 in
  if prev_colon && isc c 58 then
    match v6_compress st with
    | Some _ =>
        mw_fail X $"IPv6-multiple-compression: IPv6 address is compressed in more than one spot: %r" [PStr address]
          EIPv6 $"IPv6 address is compressed in more than one spot: %r" [PStr address]
    | None => mw_ret ({| v6_addr := v6_addr st; v6_index := S (v6_index st);
                         v6_compress := Some (S (v6_index st));
                         v6_piece := v6_piece st; v6_prev := v6_prev st |}, false)
    end
  else if prev_colon && iseof c then
    match v6_compress st with
    | Some k => if (v6_index st =? k)%nat then mw_ret (st, true) else m_ipv6_ends address
    | None => m_ipv6_ends address
    end
  else match v6_piece st with
       | [] => mw_ret ({| v6_addr := v6_addr st; v6_index := S (v6_index st);
                          v6_compress := v6_compress st; v6_piece := []; v6_prev := c |}, false)
       | _ => st' <w m_ipv6_piece address c st ;; mw_ret (st', false)
       end.

(** parse.py:1336-1483 *)
Fixpoint m_ipv6_loop (address rest : str) (st : v6state) : MW v6state :=
  if (8 <=? v6_index st)%nat then
    mw_fail X $"IPv6-too-many-pieces: IPv6 address contains more than 8 pieces: %r" [PStr address]
      EIPv6 $"IPv6 address contains more than 8 pieces: %r" [PStr address]
  else
    match rest with
    | [] => r <w m_ipv6_sep address None st ;; mw_ret (fst r)
    | c :: t =>
        if negb (c =? 58)
        then m_ipv6_loop address t {| v6_addr := v6_addr st; v6_index := v6_index st;
                                      v6_compress := v6_compress st;
                                      v6_piece := v6_piece st ++ [c]; v6_prev := Some c |}
        else r <w m_ipv6_sep address (Some c) st ;; m_ipv6_loop address t (fst r)
    end.

(** parse.py:1312-1508 *)
Definition m_ipv6_parse (address : str) : MW (list N) :=
  let zeros := repeat 0 8 in
  let start : MW (str * v6state) :=
    if starts_with $":" address
    then if starts_with $"::" address
         then mw_ret (skipn 2 address,
                      {| v6_addr := zeros; v6_index := 1; v6_compress := Some 1%nat;
                         v6_piece := []; v6_prev := None |})
         else mw_fail X $"IPv6-invalid-compression: IPv6 address begins with improper compression: %r" [PStr address]
                EIPv6 $"IPv6 address begins with improper compression: %r" [PStr address]
    else mw_ret (address, {| v6_addr := zeros; v6_index := 0; v6_compress := None;
                             v6_piece := []; v6_prev := None |}) in
  s <w start ;;
  st <w m_ipv6_loop address (fst s) (snd s) ;;
  match v6_compress st with
  | Some k => mw_opt EIndex (ipv6_swaps (v6_index st - k) 7 k (v6_addr st))
  | None => if (v6_index st =? 8)%nat then mw_ret (v6_addr st)
            else mw_fail X $"IPv6-too-few-pieces: uncompressed IPv6 address contains fewer than 8 pieces: %r" [PStr address]
                   EIPv6 $"uncompressed IPv6 address contains fewer than 8 pieces: %r" [PStr address]
  end.

(** [utf8_encode(c).decode()]: a lone surrogate becomes U+FFFD *)
Definition shown_char (c : N) : str := utf8_decode (utf8_encode [c]).

(** parse.py:586-621 *)
Definition m_parse_opaque_host (h : str) : MW str :=
  if existsb (fun c => mem c FORBIDDEN_HOST_CODE_POINT) h then
    mw_fail X $"host-invalid-code-point: opaque host (in a URL that is not special) contains a forbidden host code point: %r" [PStr h]
      EHostParse $"opaque host (in a URL that is not special) contains a forbidden host code point: %r" [PStr h]
  else (match is_url_units $"%" [] h with
        | Some c =>
            if (length c =? 1)%nat && negb (str_eqb c $"%") then
              mw_note X $"invalid-URL-unit: code point is found that is not a URL unit: U+%04X (%s) in %r"
                [PInt (hd 0 c); PStr (shown_char (hd 0 c)); PStr h]
            else mw_note X $"invalid-URL-unit: incorrect percent encoding is found: %r in %r" [PStr c; PStr h]
        | None => mw_ret tt
        end)
       >w mw_ret (utf8_percent_encode h SAFE_C0_CONTROL false).

(** parse.py:624-688 *)
Definition m_host_parse (h : str) (is_not_special : bool) : MW host :=
  match h with
  | [] => mw_ret (HStr [])
  | c :: t =>
      if c =? 91 then
        if ends_with_char h 93
        then a <w m_ipv6_parse (removelast t) ;; mw_ret (HIPv6 a)
        else mw_fail X $"IPv6-unclosed: IPv6 address is missing the closing U+005D (]): %r" [PStr h]
               EIPv6 $"IPv6 address is missing the closing U+005D (]): %r" [PStr h]
      else if is_not_special then s <w m_parse_opaque_host h ;; mw_ret (HStr s)
      else
        let domain := utf8_decode (string_percent_decode h) in
        ascii_domain <w m_domain_to_ascii false domain ;;
        if existsb (fun c => mem c FORBIDDEN_DOMAIN_CODE_POINT) ascii_domain then
          mw_fail X ($"domain-invalid-code-point: input" ++ apos ++ $"s host contains a forbidden domain code point: %r") [PStr ascii_domain]
            EHostParse ($"input" ++ apos ++ $"s host contains a forbidden domain code point: %r") [PStr ascii_domain]
        else if is_ends_in_a_number E ascii_domain
             then n <w m_ipv4_parse ascii_domain ;; mw_ret (HIPv4 n)
             else mw_ret (HStr ascii_domain)
  end.
End Host.
