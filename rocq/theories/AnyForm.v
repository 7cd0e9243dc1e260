(** [urlencode] with any codec (see AnyCodec.v): its [encoding] argument. *)
From Coq Require Import Ascii String.
From Coq Require Import NArith ZArith Bool Arith List.
From Verif Require Import PyStr Codec AnyCodec.
Import ListNotations.
Open Scope N_scope.

(** parse.py:403-420, the loop: the name is encoded first; an exception of the codec ends the call *)
Fixpoint any_fields {X} (c : anycodec X) (query : list (str * str)) : X + list str :=
  match query with
  | [] => inr []
  | (name, value) :: rest =>
      match any_percent_encode c name SAFE_URLENCODED true with
      | inl x => inl x
      | inr n =>
          match any_percent_encode c value SAFE_URLENCODED true with
          | inl x => inl x
          | inr v => match any_fields c rest with inl x => inl x | inr l => inr ((n ++ $"=" ++ v) :: l) end
          end
      end
  end.
(** parse.py:371-421 [urlencode] *)
Definition any_urlencode {X} (c : anycodec X) (query : list (str * str)) : X + str :=
  match any_fields c query with inl x => inl x | inr l => inr (join $"&" l) end.
