(** What C97 speaks about: histories of runs, iterations, writes and events. *)
From Verif Require Import Py RegModel.

(** the running pipelines an act starts an iteration over *)
Definition iterates (a : act) : list nat := match a with AIterate r => [r] | _ => [] end.
(** no running pipeline is iterated over twice *)
Definition each_once (l : list act) : Prop := NoDup (flat_map iterates l).
(** what the processes of the r-th pipeline write in a history *)
Definition written (r : nat) (l : list act) : list N :=
  flat_map (fun a => match a with AWrite r' d => if Nat.eqb r' r then d else [] | _ => [] end) l.
(** the processes of the r-th pipeline close their output in a history *)
Definition closes (r : nat) (a : act) : bool := match a with AClose r' => Nat.eqb r' r | _ => false end.
Definition is_event (a : act) : bool := match a with AEvent _ _ => true | _ => false end.
