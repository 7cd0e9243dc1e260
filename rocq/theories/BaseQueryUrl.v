(** BaseQuery.v for parse_url. *)
From Coq Require Import NArith List.
From Verif Require Import PyStr Env HostModel UrlRecord Parser BaseQuery.
Import ListNotations.

Lemma url_rec E s b enc : parse_url E s (BRec b) enc = parse_new E s (Some b) enc.
Proof. unfold parse_url, wbind, wret. destruct (parse_new E s (Some b) enc). reflexivity. Qed.
Lemma url_fragment E s b f enc : parse_url E s (BRec (set_fragment f b)) enc = parse_url E s (BRec b) enc.
Proof. rewrite !url_rec. apply base_fragment. Qed.
Lemma url_query E s b q enc :
  fst (parse_url E s (BRec (set_query q b)) enc) = fst (parse_url E s (BRec b) enc) /\
  match snd (parse_url E s (BRec b) enc) with
  | Err e => snd (parse_url E s (BRec (set_query q b)) enc) = Err e
  | Ok u => snd (parse_url E s (BRec (set_query q b)) enc) = Ok u
            \/ (query u = query b /\ snd (parse_url E s (BRec (set_query q b)) enc) = Ok (set_query q u))
  end.
Proof. rewrite !url_rec. apply base_query. Qed.
