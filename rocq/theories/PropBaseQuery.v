(** C143: what the query and the fragment of the base have to do with the result. *)
From Coq Require Import Ascii String.
From Coq Require Import NArith ZArith Bool Arith List.
From Verif Require Import PyStr PyInt Codec Env HostModel UrlRecord Parser ExampleEnv BaseQuery BaseQueryUrl.
Import ListNotations.
Open Scope N_scope.

(** The fragment of the base is not used: same result, same reports. *)
Theorem C143_fragment :
  forall E s b f enc, parse_url E s (BRec (set_fragment f b)) enc = parse_url E s (BRec b) enc.
Proof. exact url_fragment. Qed.
Print Assumptions C143_fragment.
(** The query of the base is not looked at: with another query there are the same reports and the same
    exception, and the record is the same or differs only in that it has the query of the base. *)
Theorem C143_query :
  forall E s b q enc,
  fst (parse_url E s (BRec (set_query q b)) enc) = fst (parse_url E s (BRec b) enc) /\
  match snd (parse_url E s (BRec b) enc) with
  | Err e => snd (parse_url E s (BRec (set_query q b)) enc) = Err e
  | Ok u => snd (parse_url E s (BRec (set_query q b)) enc) = Ok u
            \/ (query u = query b /\ snd (parse_url E s (BRec (set_query q b)) enc) = Ok (set_query q u))
  end.
Proof. exact url_query. Qed.
Print Assumptions C143_query.
Definition base_143 : urlrec := mkurl $"http" $"u" [] (Some (HStr $"h")) (Some 81) (PList [$"a"; $"b"]) (Some $"x") (Some $"y").
Example C143_case :
  snd (parse_url ascii_env $"#z" (BRec (set_query (Some $"w") base_143)) UTF8) = Ok (set_query (Some $"w") (set_fragment (Some $"z") base_143))
  /\ snd (parse_url ascii_env $"#z" (BRec base_143) UTF8) = Ok (set_fragment (Some $"z") base_143)
  /\ snd (parse_url ascii_env $"c" (BRec (set_query None base_143)) UTF8) = snd (parse_url ascii_env $"c" (BRec base_143) UTF8)
  /\ snd (parse_url ascii_env $"//h:x" (BRec base_143) UTF8) = Err EURLParse.
Proof. vm_compute. repeat split. Qed.
