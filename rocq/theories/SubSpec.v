(** A pipeline with subshells, and the pipeline without them. *)
From Verif Require Import Py RedirModel Os PerformModel PerformSpec RunModel RunSpec RunTopSpec RunEnds NetModel NetSpec SubModel.

(** a | subshell(b | c) | d without the subshell: a | b | c | d. *)
Definition stage_commands (g : stage) : list (list string) := match g with Command ws => [ws] | Subshell c cs => c :: cs end.
Definition spliced (gs : list stage) : list (list string) := flat_map stage_commands gs.

(** The pipeline was started as in NetSpec.v, each subshell has started its own
    pipeline ([parts]), and each child had room for its descriptors. *)
Definition sub_launched (L : limits) (pf : ofd -> bool) (logfd maxfd : nat) (g : stage) (gs : list stage)
    (s s' : st) (parts : list part) (x : nat) : Prop :=
  exists its, launched L pf logfd maxfd (stage_words g) (map stage_words gs) s s' its x /\
  enter_all L pf logfd maxfd (g :: gs) its (s_np s') (s_nt s') = Some parts /\
  (forall rs t argv, In (IProc rs t argv) (flat_map part_items parts) -> room L logfd rs t /\ find_free_fd rs < maxfd).

(** A step of one of the programs, or of a subshell. *)
Definition own_label (l : ulabel) : bool := match l with URun (NProc _) | ULeave _ => true | _ => false end.
(** No process is left. *)
Definition nobody {H} (t : snet H) : Prop := (forall i p, nth_error (u_procs t) i <> Some (Going p)) /\ (forall j, nth_error (u_subs t) j <> Some None).
(** The positions of the last programs of the stages among all of them. *)
Fixpoint last_ones (i : nat) (gs : list stage) : list nat :=
  match gs with [] => [] | g :: gs' => i + List.length (stage_commands g) - 1 :: last_ones (i + List.length (stage_commands g)) gs' end.
