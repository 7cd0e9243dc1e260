(** What programs with many objects should see: every URL object behaves as if it were
    alone, a URLSearchParams object is either that of one URL object or stands alone. *)
From Coq Require Import Ascii String.
From Coq Require Import NArith ZArith Bool Arith List.
From Verif Require Import PyStr Codec Env UrlRecord Parser SearchParams UrlApi HeapParser World SpecText SpecApi.
Import ListNotations.
Open Scope N_scope.

(** URL objects as values; a URLSearchParams object belongs to a URL object ([inl]) or
    is a value ([inr]) *)
Record lone := mklone { a_urls : list urlobj; a_params : list (nat + pairs); a_recs : list urlrec }.
Definition lone_params (a : lone) (p : nat) : option pairs :=
  match nth_error (a_params a) p with
  | None => None
  | Some (inr l) => Some l
  | Some (inl i) => match nth_error (a_urls a) i with Some o => Some (o_list o) | None => None end
  end.
Definition lone_base (a : lone) (b : wbase) : option base_arg :=
  match b with
  | WBNone => Some BNone
  | WBStr s => Some (BStr s)
  | WBUrl i => match nth_error (a_urls a) i with Some o => Some (BRec (o_url o)) | None => None end
  end.
Definition lone_rbase (a : lone) (b : rbase) : option base_arg :=
  match b with
  | RBNone => Some BNone
  | RBStr s => Some (BStr s)
  | RBRec k => match nth_error (a_recs a) k with Some u => Some (BRec u) | None => None end
  end.
Definition lone_step (E : env) (o : wop) (a : lone) : lone * answer :=
  match o with
  | WUrl s b =>
      match lone_base a b with
      | None => (a, ANone)
      | Some v =>
        match url_new E s v with
        | Ok u => (mklone (a_urls a ++ [u]) (a_params a ++ [inl (length (a_urls a))]) (a_recs a), ANone)
        | Err e => (a, ARaise e)
        end
      end
  | WSet i s =>
      match nth_error (a_urls a) i with
      | None => (a, ANone)
      | Some u => (mklone (upd i (fst (set_attr E s u)) (a_urls a)) (a_params a) (a_recs a), answer_of (snd (set_attr E s u)))
      end
  | WParams i => (mklone (a_urls a) (a_params a ++ [inr (init_list i)]) (a_recs a), ANone)
  | WCopy p =>
      match lone_params a p with
      | None => (a, ANone)
      | Some l => (mklone (a_urls a) (a_params a ++ [inr (sp_copy l)]) (a_recs a), ANone)
      end
  | WCall p op =>
      match nth_error (a_params a) p with
      | None => (a, ANone)
      | Some (inr l) => (mklone (a_urls a) (upd p (inr (sp_apply op l)) (a_params a)) (a_recs a), ANone)
      | Some (inl i) =>
        match nth_error (a_urls a) i with
        | None => (a, ANone)
        | Some u => (mklone (upd i (params_op E op u) (a_urls a)) (a_params a) (a_recs a), ANone)
        end
      end
  | WRecord s b =>
      match lone_rbase a b with
      | None => (a, ANone)
      | Some v =>
        match snd (parse_url (with_validity E false) s v UTF8) with
        | Ok u => (mklone (a_urls a) (a_params a) (a_recs a ++ [u]), ANone)
        | Err e => (a, ARaise e)
        end
      end
  | _ => (a, ANone)
  end.
Fixpoint lone_run (E : env) (prog : list wop) (a : lone) : lone :=
  match prog with [] => a | o :: t => lone_run E t (fst (lone_step E o a)) end.

(** programs that do not connect URLSearchParams objects to records themselves *)
Definition unattached (o : wop) : Prop := match o with WOf _ | WAttach _ _ => False | _ => True end.
Definition is_next (o : wop) : Prop := match o with WNext _ => True | _ => False end.

(** the calls' arguments are Python strings *)
Definition wop_ok (o : wop) : Prop :=
  match o with
  | WUrl s b => is_pystr s /\ match b with WBStr t => is_pystr t | _ => True end
  | WSet _ s => call_ok (CSet s)
  | WCall _ op => call_ok (CParams op)
  | WRecord s b => is_pystr s /\ match b with RBStr t => is_pystr t | _ => True end
  | WParams i => match i with
                 | InitStr s => is_pystr s
                 | InitPairs l | InitDict l => Forall (fun nv => is_pystr (py_str (fst nv)) /\ is_pystr (py_str (snd nv))) l
                 | InitNone => True
                 end
  | _ => True
  end.

(** the calls that concern URL object [i]: its own setters and the calls on its search_params *)
Definition concerns (w : world) (o : wop) (i : nat) : Prop :=
  match o with
  | WSet j _ => j = i
  | WCall p _ => exists u, nth_error (w_urls w) i = Some u /\ u_params u = p
  | _ => False
  end.

(* ---------- iterators ---------- *)
(** WebIDL's iterators over pairs: the [n]-th call of next looks at position [n] of the
    pairs the object has at that time *)
Definition live_next (l : pairs) (n : nat) : answer :=
  match nth_error l n with Some nv => APair nv | None => AStop end.
Definition live_name (f : str * str -> str) (l : pairs) (n : nat) : answer :=
  match nth_error l n with Some nv => AName (f nv) | None => AStop end.
Definition is_next_of (k : nat) (o : wop) : bool := match o with WNext j => (j =? k)%nat | _ => false end.
Definition nexts (k : nat) (prog : list wop) : nat := length (filter (is_next_of k) prog).
(** the calls that give [p] another list: attach, and assignments to search and href of
    the URL object it belongs to *)
Definition rebinds (w : world) (o : wop) (p : nat) : Prop :=
  match o with
  | WAttach q _ => q = p
  | WSet i (SetSearch _) | WSet i (SetHref _) => exists u, nth_error (w_urls w) i = Some u /\ u_params u = p
  | _ => False
  end.
(** during [prog], [p] is never given another list and iterator [k] never ends *)
Fixpoint undisturbed (E : env) (p k : nat) (prog : list wop) (w : world) : Prop :=
  match prog with
  | [] => True
  | o :: t => ~ rebinds w o p /\ (o = WNext k -> snd (wstep E o w) <> AStop) /\ undisturbed E p k t (fst (wstep E o w))
  end.

(* ---------- programs that connect URLSearchParams objects to records ---------- *)
Definition pairs_of_query (u : urlrec) : pairs :=
  std_urlencoded_parse (std_utf8_encode (scalar_value_string (match query u with Some q => q | None => [] end))).
(** [p] shows the query of the record it is connected to *)
Definition shows_record (w : world) (p : nat) : Prop :=
  forall q r, nth_error (w_params w) p = Some q -> p_rec q = Some r -> see_params w p = Some (pairs_of_query (read (w_heap w) r)).
(** the list of url.search_params is that of url.search *)
Definition shows_url (w : world) (i : nat) : Prop :=
  forall o, see_url w i = Some o -> o_list o = pairs_of_query (o_url o).
(** the calls that write the query of the record of [p] behind its back: calls on another
    URLSearchParams object, and assignments to search of a URL object whose
    search_params is another one *)
Definition foreign (w : world) (o : wop) (p : nat) : Prop :=
  exists q r, nth_error (w_params w) p = Some q /\ p_rec q = Some r /\
  match o with
  | WCall p' _ => p' <> p /\ exists q', nth_error (w_params w) p' = Some q' /\ p_rec q' = Some r
  | WSet i (SetSearch _) => exists u, nth_error (w_urls w) i = Some u /\ u_rec u = r /\ u_params u <> p
  | _ => False
  end.
Fixpoint unshared (E : env) (p : nat) (prog : list wop) (w : world) : Prop :=
  match prog with
  | [] => True
  | o :: t => ~ foreign w o p /\ unshared E p t (fst (wstep E o w))
  end.
(** how many pairs or names iterator [k] has given during [prog] *)
Fixpoint got (E : env) (k : nat) (prog : list wop) (w : world) : nat :=
  match prog with
  | [] => 0
  | o :: t => (match o, snd (wstep E o w) with
               | WNext j, AStop => 0
               | WNext j, _ => if (j =? k)%nat then 1 else 0
               | _, _ => 0
               end + got E k t (fst (wstep E o w)))%nat
  end.
