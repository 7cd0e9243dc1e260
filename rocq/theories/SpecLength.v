(** How long the serialization of a parsed URL may be. *)
From Coq Require Import NArith List.
From Verif Require Import PyStr HostModel UrlRecord Parser.
Open Scope nat_scope.

(** What the base argument contributes, if a code point becomes at most [k] characters. *)
Definition base_length (k : nat) (base : base_arg) : nat :=
  match base with
  | BNone => 0
  | BStr b => k * length b + 5
  | BRec b => length (href b)
  end.

(** At most [k] characters per code point of the input; the host, which IDNA may make longer, is counted by itself,
    and 16 characters are added at most: "file", "://", ":@", ":65535" and a "/". *)
Definition length_bound (k : nat) (s : str) (base : base_arg) (u : urlrec) : Prop :=
  length (href u) <= k * length s + base_length k base + length (serialize_host u) + 16.
