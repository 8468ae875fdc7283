(** What filter(func) is expected to give. *)
From Verif Require Import Py IterModel Utf8Model.
Definition holds (func : text -> res bool) (t : text) : bool := match func t with Ok b => b | Err _ => false end.
(** The lines for which [func] holds, up to the first for which it raises. *)
Definition kept (func : text -> res bool) (texts : list text) (vs : list pyval) (e : iend) : Prop :=
  exists d rest, texts = d ++ rest /\ Forall (fun t => exists b, func t = Ok b) d /\ vs = map VStr (filter (holds func) d) /\
    (rest = [] /\ e = EStop \/ exists t r x, rest = t :: r /\ func t = Err x /\ e = ERaise x).
