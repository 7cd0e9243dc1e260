(** Levels of log calls: ERROR for what stops a call, INFO for everything else. *)
From Coq Require Import NArith Bool List.
From Verif Require Import PyStr Env Repr Message.
Import ListNotations.

Definition informs (l : list entry) : Prop := Forall (fun en => e_level en = INFO) l.
Definition alarms (l : list entry) : Prop := exists l0 en, l = l0 ++ [en] /\ informs l0 /\ e_level en = ERROR.
(** A call that returns has logged at INFO only. One that raises URLParseError or a subclass has logged
    one ERROR, as the last thing. One that raises something else may have done so. [quietly]: it
    may also raise URLParseError without an ERROR. *)
Definition levels (quietly : Prop) {A} (l : list entry) (r : mres A) : Prop :=
  match r with
  | MOk _ => informs l
  | MErr e _ => alarms l \/ informs l /\ (is_url_error e = true -> quietly)
  end.
