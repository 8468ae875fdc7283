(** Positions in a tree, independently of how it is built. *)
From Verif Require Import Py PathModel TreeModel.

(** What is reached by following keys. *)
Fixpoint follow (t : tree) (path : list text) : option tree :=
  match path with
  | [] => Some t
  | k :: path' => match t with
                  | Leaf _ => None
                  | Group cs => match dget cs k with Some t' => follow t' path' | None => None end
                  end
  end.
Definition found_at (t : tree) (path : list text) (p : proc) : Prop := follow t path = Some (Leaf p).
(** A slugify that leaves strings of decimal digits alone. *)
Definition all_digits (t : text) : Prop := forall c, In c t -> is_digit c = true.
Definition keeps_digits (slug : text -> text) : Prop := forall t, all_digits t -> slug t = t.
(** Different processes are different objects. *)
Definition distinct_ids (ps : list proc) : Prop := NoDup (map p_id ps).
