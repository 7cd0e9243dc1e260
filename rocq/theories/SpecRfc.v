(** RFC 3986, section 5.2: how a relative reference is resolved against a base URI
    ("Transform References", "Merge Paths", "Remove Dot Segments"), written from the
    RFC: it works on strings, with an input and an output buffer, and knows neither
    segments lists nor parser states. *)
From Coq Require Import Ascii String.
From Coq Require Import NArith Bool Arith List.
From Verif Require Import PyStr UrlRecord SpecText SpecUrl.
Import ListNotations.
Open Scope N_scope.

(** the text after a prefix *)
Fixpoint after (p s : list N) : option (list N) :=
  match p, s with
  | [], _ => Some s
  | a :: p', c :: s' => if a =? c then after p' s' else None
  | _ :: _, [] => None
  end.
(** "the first path segment in the input buffer, including the initial "/" character
    (if any) and any subsequent characters up to, but not including, the next "/"
    character or the end of the input buffer", and what remains *)
Fixpoint upto_slash (s : list N) : list N * list N :=
  match s with
  | [] => ([], [])
  | c :: t => if c =? 47 then ([], s) else let (a, r) := upto_slash t in (c :: a, r)
  end.
Definition first_segment (s : list N) : list N * list N :=
  match s with c :: t => let (a, r) := upto_slash t in (c :: a, r) | [] => ([], []) end.
(** "remove the last segment and its preceding "/" (if any) from the output buffer" *)
Fixpoint without_last (s : list N) : list N :=
  match s with
  | [] => []
  | c :: t => if existsb (N.eqb 47) t then c :: without_last t else if c =? 47 then [] else without_last t
  end.

(** section 5.2.4, step 2: A, B, C, D, E *)
Definition rfc_step (inp out : list N) : list N * list N :=
  match after $"../" inp, after $"./" inp with
  | Some t, _ => (t, out)
  | _, Some t => (t, out)
  | _, _ =>
  match after $"/./" inp with
  | Some t => (47 :: t, out)
  | None => if str_eqb inp $"/." then ($"/", out) else
  match after $"/../" inp with
  | Some t => (47 :: t, without_last out)
  | None => if str_eqb inp $"/.." then ($"/", without_last out) else
  if str_eqb inp $"." || str_eqb inp $".." then ([], out) else
  let (s, t) := first_segment inp in (t, out ++ s)
  end end end.
Fixpoint rfc_loop (n : nat) (inp out : list N) : list N :=
  match n, inp with
  | S m, _ :: _ => let (i, o) := rfc_step inp out in rfc_loop m i o
  | _, _ => out
  end.
(** every step makes the input buffer shorter *)
Definition remove_dot_segments (p : list N) : list N := rfc_loop (length p) p [].

(** section 5.2.3 *)
Fixpoint upto_last_slash (s : list N) : list N :=
  match s with
  | [] => []
  | c :: t => if existsb (N.eqb 47) t then c :: upto_last_slash t else if c =? 47 then [47] else []
  end.
Definition rfc_merge (authority : bool) (base_path ref_path : list N) : list N :=
  match base_path with
  | [] => if authority then 47 :: ref_path else ref_path
  | _ => upto_last_slash base_path ++ ref_path
  end.

(** section 5.2.2, for a reference that has no scheme and no authority: path and query of the target *)
Definition rfc_transform (authority : bool) (base_path : list N) (base_query : option (list N))
    (ref_path : list N) (ref_query : option (list N)) : list N * option (list N) :=
  match ref_path with
  | [] => (base_path, match ref_query with Some q => Some q | None => base_query end)
  | c :: _ => if c =? 47 then (remove_dot_segments ref_path, ref_query)
              else (remove_dot_segments (rfc_merge authority base_path ref_path), ref_query)
  end.

(** a list path as the text of a path *)
Definition path_text (l : list (list N)) : list N := flat_map (fun s => 47 :: s) l.
(** The URL Standard takes "%2e" for "." where a whole segment is written with
    it; the same text with these segments written with dots. *)
Definition plain_segment (s : list N) : list N := if std_single_dot s then $"." else if std_double_dot s then $".." else s.
Fixpoint plain_dots_from (seg s : list N) : list N :=
  match s with
  | [] => plain_segment (rev seg)
  | c :: t => if c =? 47 then plain_segment (rev seg) ++ 47 :: plain_dots_from [] t else plain_dots_from (c :: seg) t
  end.
Definition plain_dots (s : list N) : list N := plain_dots_from [] s.

(** the text of a reference with the given path, query and fragment *)
Definition reference_text (p : list N) (q f : option (list N)) : list N :=
  p ++ match q with Some q => 63 :: q | None => [] end ++ match f with Some f => 35 :: f | None => [] end.
