(** parse.py:4058-4322 [BasicURLParser.parse] with all its arguments. *)
From Coq Require Import Ascii String.
From Coq Require Import NArith Bool List.
From Verif Require Import PyStr Env HostModel UrlRecord Parser.
Import ListNotations.
Open Scope N_scope.

(** [url]: None means that a new record is made and that the input is stripped first, also with an override
    (parse.py:4171-4183). The result: the validation errors, the record after the call - the method returns the
    same object - and how the call ended. Not modelled: [url] being the same object as [base]. *)
Definition basic_parse (E : env) (urlstring : str) (base : option urlrec) (encoding : str)
    (url : option urlrec) (so : option pstate) : list verr * (urlrec * res unit) :=
  match url with
  | Some u => parse_into E urlstring base encoding so u
  | None => (when (needs_strip urlstring) (logm VInvalidURLUnit) ;; parse_into E (strip_c0 urlstring) base encoding so) new_url
  end.
