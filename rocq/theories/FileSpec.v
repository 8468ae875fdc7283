(** What was written, independently of the file system. *)
From Verif Require Import Py RedirModel FileModel.

(** All bytes process [i] wrote. *)
Definition output_of (i : nat) (es : list fev) : list N :=
  flat_map (fun e => match e with FWrite j data => if Nat.eqb j i then data else [] | FOpen _ => [] end) es.
(** All bytes written, in order. *)
Definition all_output (es : list fev) : list N := flat_map (fun e => match e with FWrite _ data => data | FOpen _ => [] end) es.
Definition only (i : nat) (es : list fev) : Prop := Forall (fun e => match e with FOpen j | FWrite j _ => j = i end) es.
Definition old_content (f : fs) (p : path) : list N := match f p with Some c => c | None => [] end.
