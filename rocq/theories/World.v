(** Programs that hold any number of URL, URLSearchParams and iterator objects, on a
    heap: URL records (HeapParser.v), lists of pairs, URLSearchParams objects with a
    reference to a list and to a record, URL objects with a reference to a record and to
    a URLSearchParams object, list iterators. *)
From Coq Require Import Ascii String.
From Coq Require Import NArith ZArith Bool Arith List.
From Verif Require Import PyStr PyInt Codec Env HostModel UrlRecord Parser SearchParams UrlApi HeapParser.
Import ListNotations.
Open Scope N_scope.

(** a URLSearchParams object: [_list] and [_url] *)
Record pobj := mkpobj { p_list : nat; p_rec : option nat }.
(** a URL object: [_url] and [_query] *)
Record uobj := mkuobj { u_rec : nat; u_params : nat }.
(** CPython's list iterator: the list, forgotten at the first StopIteration, and an
    index; an iterator over a list that nobody else has is given by what it has left *)
Inductive iter := ILive (l : option nat) (pos : nat) | IRest (rest : list str).
Record world := mkworld {
  w_heap : heap; w_lists : list pairs; w_params : list pobj; w_urls : list uobj; w_iters : list iter;
  w_recs : list nat (* the records that parse_url returned to the program *) }.
Definition empty_world : world := mkworld (mkheap [] []) [] [] [] [] [].

Definition with_heap (h : heap) (w : world) : world := mkworld h (w_lists w) (w_params w) (w_urls w) (w_iters w) (w_recs w).

(* ---------- records ---------- *)
(** parse.py:271-278 [potentially_rstrip_from_opaque_path] *)
Definition hrstrip (E : env) (me : nat) : HM unit :=
  hbind (hget me) (fun u =>
  match path u, fragment u, query u with
  | POpaque s, None, None => hset_text me (rstrip_by (is_py_space E) s)
  | _, _, _ => hret tt
  end).
(** [BasicURLParser.parse(value, url=url, state_override=so)] *)
Definition hreparse (E : env) (me : nat) (value : str) (so : pstate) : HM unit :=
  hparse_into (with_validity E false) me value None UTF8 (Some so).
Notation "m --;; k" := (hbind m (fun _ => k)) (at level 61, right associativity).

(** What the setters of URL other than href do to the record [me] (parse.py:2499-2511,
    2542-2548, 2570-2576, 2637-2643, 2665-2674, 2697-2706, 2727-2733, 2755-2767, 2830-2836) *)
Definition hset_attr (E : env) (me : nat) (s : setter) : HM unit :=
  hbind (hget me) (fun u =>
  match s with
  | SetHash [] => hset me (set_fragment None) --;; hrstrip E me
  | SetHash v => hset me (set_fragment (Some [])) --;; hreparse E me (strip_char 35 v) FRAGMENT
  | SetHost v => if has_opaque_path u then hret tt else hreparse E me v HOST
  | SetHostname v => if has_opaque_path u then hret tt else hreparse E me v HOSTNAME
  | SetHref _ => hret tt
  | SetPassword v =>
      if cannot_have_username_password_port u then hret tt
      else hset me (set_password (utf8_percent_encode v SAFE_USERINFO false))
  | SetPathname v =>
      if has_opaque_path u then hret tt else hset_list me [] --;; hreparse E me v PATH_START
  | SetPort v =>
      if cannot_have_username_password_port u then hret tt
      else match v with
           | [] => hset me (set_port None)
           | _ => hreparse E me v PORT
           end
  | SetProtocol v => hreparse E me (v ++ $":") SCHEME_START
  | SetSearch [] => hset me (set_query None) --;; hrstrip E me
  | SetSearch v => hset me (set_query (Some [])) --;; hreparse E me (strip_char 63 v) QUERY
  | SetUsername v =>
      if cannot_have_username_password_port u then hret tt
      else hset me (set_username (utf8_percent_encode v SAFE_USERINFO false))
  end).
(** parse.py:2092-2101 [URLSearchParams._update], with the list given *)
Definition hupdate (E : env) (me : nat) (l : pairs) : HM unit :=
  match sp_str l with
  | [] => hset me (set_query None) --;; hrstrip E me
  | s => hset me (set_query (Some s))
  end.

(* ---------- objects ---------- *)
(** parse.py:2122-2130 [attach]: [_list] becomes a new list *)
Definition attach (p r : nat) (w : world) : world :=
  mkworld (w_heap w) (w_lists w ++ [attach_list (read (w_heap w) r)])
    (upd p (mkpobj (length (w_lists w)) (Some r)) (w_params w)) (w_urls w) (w_iters w) (w_recs w).
(** a new URLSearchParams object with a new list *)
Definition add_params (l : pairs) (w : world) : world :=
  mkworld (w_heap w) (w_lists w ++ [l]) (w_params w ++ [mkpobj (length (w_lists w)) None]) (w_urls w) (w_iters w) (w_recs w).
Definition list_of (w : world) (p : pobj) : pairs := nth (p_list p) (w_lists w) [].

Inductive init := InitStr (s : str) | InitPairs (l : list (pyval * pyval)) | InitDict (l : list (pyval * pyval)) | InitNone.
Definition init_list (i : init) : pairs :=
  match i with InitStr s => sp_init_str s | InitPairs l => sp_init_pairs l | InitDict l => sp_init_dict l | InitNone => [] end.

Inductive wbase := WBNone | WBStr (s : str) | WBUrl (i : nat).
(** parse_url takes records as bases *)
Inductive rbase := RBNone | RBStr (s : str) | RBRec (k : nat).
Inductive wop :=
| WUrl (s : str) (base : wbase)        (* URL(s, base) *)
| WSet (i : nat) (s : setter)          (* url.attr = v *)
| WParams (init : init)                (* URLSearchParams(init) *)
| WCopy (p : nat)                      (* URLSearchParams(params) *)
| WCall (p : nat) (op : sp_op)         (* params.append(..), ... *)
| WRecord (s : str) (base : rbase)     (* parse_url(s, base) *)
| WOf (k : nat)                        (* URLSearchParams(record) *)
| WAttach (p k : nat)                  (* params.attach(record) *)
| WEntries (p : nat)                   (* iter(params), params.entries() *)
| WKeys (p : nat)                      (* params.keys() *)
| WValues (p : nat)                    (* params.values() *)
| WNext (k : nat).                     (* next(it) *)
(** what a call returns *)
Inductive answer := ANone | ARaise (e : exc) | APair (nv : str * str) | AName (s : str) | AStop.
Definition answer_of (r : res unit) : answer := match r with Ok _ => ANone | Err e => ARaise e end.

(** the base of the constructor (parse.py:2384-2386); an index out of range makes the
    whole call meaningless *)
Definition base_of_url (w : world) (b : wbase) : option hbase_arg :=
  match b with
  | WBNone => Some HBNone
  | WBStr s => Some (HBStr s)
  | WBUrl i => match nth_error (w_urls w) i with Some u => Some (HBRec (u_rec u)) | None => None end
  end.

Definition base_of_rec (w : world) (b : rbase) : option hbase_arg :=
  match b with
  | RBNone => Some HBNone
  | RBStr s => Some (HBStr s)
  | RBRec k => match nth_error (w_recs w) k with Some r => Some (HBRec r) | None => None end
  end.

(** Operations on objects that do not exist do nothing. *)
Definition wstep (E : env) (o : wop) (w : world) : world * answer :=
  match o with
  | WUrl s b =>                                                         (* 2383-2388 *)
      match base_of_url w b with
      | None => (w, ANone)
      | Some a =>
        match hparse_url (with_validity E false) s a UTF8 (w_heap w) with
        | (_, (h, Err e)) => (with_heap h w, ARaise e)
        | (_, (h, Ok r)) =>
            let p := length (w_params w) in
            let w1 := attach p r (add_params [] (with_heap h w)) in
            (mkworld (w_heap w1) (w_lists w1) (w_params w1) (w_urls w ++ [mkuobj r p]) (w_iters w) (w_recs w), ANone)
        end
      end
  | WSet i s =>
      match nth_error (w_urls w) i with
      | None => (w, ANone)
      | Some u =>
        match s with
        | SetHref v =>                                                  (* 2600-2602 *)
            match hparse_new (with_validity E false) v None UTF8 (w_heap w) with
            | (_, (h, Err e)) => (with_heap h w, ARaise e)
            | (_, (h, Ok r)) =>
                (attach (u_params u) r
                   (mkworld h (w_lists w) (w_params w) (upd i (mkuobj r (u_params u)) (w_urls w)) (w_iters w) (w_recs w)), ANone)
            end
        | _ =>
            let (h, r) := snd (hset_attr E (u_rec u) s (w_heap w)) in
            let w1 := with_heap h w in
            match s, r with
            | SetSearch _, Ok _ => (attach (u_params u) (u_rec u) w1, ANone)    (* 2783 *)
            | _, _ => (w1, answer_of r)
            end
        end
      end
  | WParams i => (add_params (init_list i) w, ANone)
  | WCopy p =>
      match nth_error (w_params w) p with
      | None => (w, ANone)
      | Some q => (add_params (sp_copy (list_of w q)) w, ANone)
      end
  | WCall p op =>
      match nth_error (w_params w) p with
      | None => (w, ANone)
      | Some q =>
          let l := sp_apply op (list_of w q) in
          let w1 := mkworld (w_heap w) (upd (p_list q) l (w_lists w)) (w_params w) (w_urls w) (w_iters w) (w_recs w) in
          match p_rec q with
          | None => (w1, ANone)
          | Some r => (with_heap (fst (snd (hupdate E r l (w_heap w)))) w1, ANone)
          end
      end
  | WRecord s b =>                                                      (* 4325-4361 *)
      match base_of_rec w b with
      | None => (w, ANone)
      | Some a =>
        match hparse_url (with_validity E false) s a UTF8 (w_heap w) with
        | (_, (h, Err e)) => (with_heap h w, ARaise e)
        | (_, (h, Ok r)) => (mkworld h (w_lists w) (w_params w) (w_urls w) (w_iters w) (w_recs w ++ [r]), ANone)
        end
      end
  | WOf k =>                                                            (* 1973-1975 *)
      match nth_error (w_recs w) k with
      | None => (w, ANone)
      | Some r => (attach (length (w_params w)) r (add_params [] w), ANone)
      end
  | WAttach p k =>
      match nth_error (w_recs w) k, nth_error (w_params w) p with
      | Some r, Some _ => (attach p r w, ANone)
      | _, _ => (w, ANone)
      end
  | WEntries p =>                                                       (* 2050, 2165 *)
      match nth_error (w_params w) p with
      | None => (w, ANone)
      | Some q => (mkworld (w_heap w) (w_lists w) (w_params w) (w_urls w) (w_iters w ++ [ILive (Some (p_list q)) 0]) (w_recs w), ANone)
      end
  | WKeys p =>                                                          (* 2246-2252 *)
      match nth_error (w_params w) p with
      | None => (w, ANone)
      | Some q => (mkworld (w_heap w) (w_lists w) (w_params w) (w_urls w) (w_iters w ++ [IRest (map fst (list_of w q))]) (w_recs w), ANone)
      end
  | WValues p =>                                                        (* 2314-2320 *)
      match nth_error (w_params w) p with
      | None => (w, ANone)
      | Some q => (mkworld (w_heap w) (w_lists w) (w_params w) (w_urls w) (w_iters w ++ [IRest (map snd (list_of w q))]) (w_recs w), ANone)
      end
  | WNext k =>
      let put it := mkworld (w_heap w) (w_lists w) (w_params w) (w_urls w) (upd k it (w_iters w)) (w_recs w) in
      match nth_error (w_iters w) k with
      | None => (w, ANone)
      | Some (IRest []) | Some (ILive None _) => (w, AStop)
      | Some (IRest (x :: t)) => (put (IRest t), AName x)
      | Some (ILive (Some l) i) =>
          match nth_error (nth l (w_lists w) []) i with
          | Some nv => (put (ILive (Some l) (S i)), APair nv)
          | None => (put (ILive None i), AStop)
          end
      end
  end.
Fixpoint wrun (E : env) (prog : list wop) (w : world) : world * list answer :=
  match prog with
  | [] => (w, [])
  | o :: t => let (w1, a) := wstep E o w in let (w2, l) := wrun E t w1 in (w2, a :: l)
  end.

(** what a program sees of a URL object, of a URLSearchParams object and of a record *)
Definition see_url (w : world) (i : nat) : option urlobj :=
  match nth_error (w_urls w) i with
  | Some u => Some (UrlApi.mkobj (read (w_heap w) (u_rec u)) (list_of w (nth (u_params u) (w_params w) (mkpobj 0 None))))
  | None => None
  end.
Definition see_params (w : world) (p : nat) : option pairs :=
  match nth_error (w_params w) p with Some q => Some (list_of w q) | None => None end.
Definition see_rec (w : world) (k : nat) : option urlrec :=
  match nth_error (w_recs w) k with Some r => Some (read (w_heap w) r) | None => None end.
