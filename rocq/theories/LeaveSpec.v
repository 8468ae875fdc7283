(** Leaving a loop over a pipeline. *)
From Verif Require Import NetModel.
(** How often the iteration was asked for an item: [for line in pipeline: break]
    asks once. *)
Definition asks (l : nlabel) : bool := match l with NNext => true | _ => false end.
Definition asked (ls : list nlabel) : nat := length (List.filter asks ls).
