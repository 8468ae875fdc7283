(** Several pipelines at the same time: what was started, and what one of them did. *)
From Verif Require Import Py RedirModel Os PerformModel PerformSpec RunModel RunSpec RunTopSpec RunEnds NetModel ManyModel.

(** The pipelines in the order they were started: commands and programs. *)
Fixpoint starts (ls : list mlabel) : list (list string * list (list string) * list prog) :=
  match ls with
  | [] => []
  | MStart c cs progs :: r => (c, cs, progs) :: starts r
  | MStep _ _ :: r => starts r
  end.
(** The steps of the j-th pipeline. *)
Fixpoint steps_of (j : nat) (ls : list mlabel) : list nlabel :=
  match ls with
  | [] => []
  | MStart _ _ _ :: r => steps_of j r
  | MStep i l :: r => if Nat.eqb i j then l :: steps_of j r else steps_of j r
  end.
(** A shell that has standard files and whose pipes are all older. *)
Definition a_shell (s : st) : Prop :=
  refers (s_tab s) 0 <> None /\ refers (s_tab s) 1 <> None /\ tget (s_tab s) 2 <> None /\
  forall n o, refers (s_tab s) n = Some o -> is_end o -> pipe_no o < s_np s.
