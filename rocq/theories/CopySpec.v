(** What a copy is, independently of how it is made. *)
From Verif Require Import Py CopyModel.

(** Every reference points to an object. *)
Definition closed (h : heap) : Prop := forall r c, In c (children h r) -> c < List.length h.
(** Containers: what a copy must not share. *)
Definition container (o : obj) : Prop :=
  match o with OSeq _ _ | ODict _ | ONode _ _ _ _ => True | _ => False end.
(** An object and its copy look the same, not looking at their parts: strings by
    their text, unknown objects by identity, pipelines by class and environment,
    and a copied pipeline has not been started. *)
Definition alike (x : nat) (o : obj) (y : nat) (o' : obj) : Prop :=
  match o, o' with
  | OOther _, OOther _ => x = y
  | OStr _ t, OStr _ t' => t = t'
  | OSeq k _, OSeq k' _ => k = k'
  | ODict _, ODict _ => True
  | ONode c e _ _, ONode c' e' _ st => c = c' /\ e = e' /\ st = false
  | _, _ => False
  end.
(** Position by position, one looks like the other. *)
Definition mirrors (h : heap) (r : nat) (h' : heap) (r' : nat) : Prop :=
  forall p, match at_path h r p, at_path h' r' p with
            | Some x, Some y => exists o o', nth_error h x = Some o /\ nth_error h' y = Some o' /\ alike x o y o'
            | None, None => True
            | _, _ => False
            end.
(** The objects below [r] have no cycle: no path is longer than [d]. *)
Definition depth_below (h : heap) (r : nat) (d : nat) : Prop :=
  forall p x, at_path h r p = Some x -> List.length p < d.
(** No copy is going on: the memo in force, if any, is empty. *)
Definition idle (s : cst) : Prop := match c_cur s with Some m => m < List.length (c_memos s) /\ nth m (c_memos s) [] = [] | None => True end.
