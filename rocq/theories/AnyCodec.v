(** The parser with any codec for the query: encodings that Python does not know (LookupError), encodings with a
    state or a byte order mark, codecs that raise. What [str.encode] and [codecs.iterencode] do is a parameter; [X] is
    the type of the exceptions that a codec raises. Parser.v has the case of codecs that work character by character;
    AnyCodecProofs.v proves that it is the same there. *)
From Coq Require Import Ascii String.
From Coq Require Import NArith ZArith Bool Arith List.
From Verif Require Import PyStr PyInt Codec Env HostModel UrlRecord Parser.
Import ListNotations.
Open Scope N_scope.

Inductive encoded (X : Type) := EBytes (b : bytes) | EUnencodable | EOther (x : X).
Arguments EBytes {X} _. Arguments EUnencodable {X}. Arguments EOther {X} _.
Record anycodec (X : Type) := {
  (** [s.encode(encoding, "strict")]: bytes, UnicodeEncodeError, or another exception *)
  strict : str -> encoded X;
  (** [codecs.iterencode(s, encoding, "xmlcharrefreplace")]: the chunks, or an exception *)
  chunks : str -> list bytes + X
}.
Arguments strict {X} _ _. Arguments chunks {X} _ _.

(** parse.py:317-364 [string_percent_encode]. [quote] and [quote_plus] return '' for '' without asking the codec. *)
Definition any_percent_encode {X} (c : anycodec X) (s safe : str) (plus : bool) : X + str :=
  match usv s with
  | [] => inr []
  | s =>
      match strict c s with
      | EBytes b => inr (if plus && mem 32 s then replace_char 32 43 (quote_bytes (safe ++ [32]) b) else quote_bytes safe b)
      | EOther x => inl x
      | EUnencodable =>
          match chunks c s with
          | inr x => inl x
          | inl bs => inr (flat_map (fun b => if starts_with $"&#" b then quote_via_bytes plus (quote_default_safe plus) b
                                              else quote_via_bytes plus safe b) bs)
          end
      end
  end.

Section AnyCodec.
Context {X : Type} (cd : str -> anycodec X) (E : env).

(** parse.py:3713-3783 [_parse_query]; [inl x]: the codec raised [x] *)
Definition any_flush (encoding buffer : str) : M (option X) :=
  u <- get ;;
  let safe := if is_special u then SAFE_SPECIAL_QUERY else SAFE_QUERY in
  let e := query_encoding u encoding in
  match (if str_eqb e $"utf-8" then inr (utf8_percent_encode buffer safe false) else any_percent_encode (cd e) buffer safe false) with
  | inl x => ret (Some x)
  | inr y => query_append y ;; ret None
  end.
Fixpoint any_query_loop (so : option pstate) (encoding rest : str) (i : nat) (buffer : str) : M (X + pstate * nat) :=
  match rest with
  | [] => if (length buffer =? 0)%nat then ret (inr (FRAGMENT, i))
          else r <- any_flush encoding buffer ;; ret (match r with Some x => inl x | None => inr (FRAGMENT, i) end)
  | c :: t =>
      if negb (overridden so) && (c =? 35) then
        r <- any_flush encoding buffer ;;
        match r with
        | Some x => ret (inl x)
        | None => modify (set_fragment (Some [])) ;; ret (inr (FRAGMENT, S i))
        end
      else check_unit c t ;; any_query_loop so encoding t (S i) (buffer ++ [c])
  end.
(** parse.py:4198-4305; the other states do not use the encoding *)
Definition any_step (base : option urlrec) (encoding : str) (so : option pstate) (st : pstate) (rest : str)
  : M (X + pstate * nat) :=
  match st with
  | QUERY => any_query_loop so encoding rest 0 []
  | _ => r <- step E base encoding so st rest ;; ret (inr r)
  end.
Fixpoint any_fsm (fuel : nat) (base : option urlrec) (encoding : str) (so : option pstate) (st : pstate) (rest : str)
  : M (option X) :=
  match st with
  | EOF => ret None
  | _ =>
      match fuel with
      | O => raise EFuel
      | S f =>
          r <- any_step base encoding so st rest ;;
          match r with
          | inl x => ret (Some x)
          | inr r => any_fsm f base encoding so (fst r) (skipn (snd r) rest)
          end
      end
  end.
Definition any_into (urlstring : str) (base : option urlrec) (encoding : str) (so : option pstate) : M (option X) :=
  when (existsb is_tab_newline urlstring) (logm VInvalidURLUnit) ;;
  any_fsm FSM_FUEL base (normalize_encoding E encoding) so
    (match so with Some st => st | None => SCHEME_START end) (remove_tabs urlstring).
(** parse.py:4058-4322 [BasicURLParser.parse] without [url]; [Ok (inl x)]: the codec's exception [x] escapes *)
Definition any_new (urlstring : str) (base : option urlrec) (encoding : str) : W (X + urlrec) :=
  match ((when (needs_strip urlstring) (logm VInvalidURLUnit) ;;
          any_into (strip_c0 urlstring) base encoding None) new_url) with
  | (l, (u, Ok None)) => (l, Ok (inr u))
  | (l, (_, Ok (Some x))) => (l, Ok (inl x))
  | (l, (_, Err e)) => (l, Err e)
  end.
(** parse.py:4325-4361 [parse_url] *)
Definition any_parse_url (urlstring : str) (base : base_arg) (encoding : str) : W (X + urlrec) :=
  match base with
  | BNone => any_new urlstring None encoding
  | BRec u => any_new urlstring (Some u) encoding
  | BStr s => r <~ any_new s None encoding ;;
              match r with inl x => wret (inl x) | inr u => any_new urlstring (Some u) encoding end
  end.
End AnyCodec.

(** a codec without state: [f] encodes one character *)
Definition charref_chunk (f : N -> option (list N)) (c : N) : option bytes :=
  match f c with Some b => Some b | None => encode_all f (charref c) end.
Fixpoint char_chunks (f : N -> option (list N)) (s : str) : list bytes + unit :=
  match s with
  | [] => inl []
  | c :: t => match charref_chunk f c, char_chunks f t with
              | Some b, inl bs => inl (match b with [] => bs | _ => b :: bs end)
              | _, _ => inr tt
              end
  end.
Definition char_codec (f : N -> option (list N)) : anycodec unit :=
  {| strict := fun s => match encode_all f s with Some b => EBytes b | None => EUnencodable end;
     chunks := char_chunks f |}.
(** such a codec raises only UnicodeEncodeError *)
Definition plain_result (w : W (unit + urlrec)) : W urlrec :=
  match w with
  | (l, Ok (inr u)) => (l, Ok u)
  | (l, Ok (inl _)) => (l, Err EUnicode)
  | (l, Err e) => (l, Err e)
  end.

(** the codec makes bytes *)
Definition bytes_codec {X} (c : anycodec X) : Prop :=
  (forall s b, strict c s = EBytes b -> Forall (fun c => c < 256) b) /\ (forall s bs, chunks c s = inl bs -> Forall (Forall (fun c => c < 256)) bs).
(** An encoding that Python does not know: [x] is the LookupError. *)
Definition unknown_codec {X} (x : X) (c : anycodec X) : Prop := forall s, strict c s = EOther x /\ chunks c s = inr x.
