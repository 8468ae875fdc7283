(** A python iterator at the head of a pipeline of programs. *)
From Verif Require Import Py RedirModel Os PerformModel PerformSpec RunModel RunSpec RunTopSpec RunEnds NetModel NetSpec SrcModel.

(** [iterator | cs...] was started with its output into a pipe, by a shell that
    has standard files and whose pipes are all older; [its] was started, and [x]
    is the descriptor the caller reads from.  Each child had room for its
    descriptors. *)
Definition sourced (L : limits) (pf : ofd -> bool) (logfd maxfd : nat) (cs : list (list string))
    (s s' : st) (its : list item) (x : nat) : Prop :=
  refers (s_tab s) 0 <> None /\ refers (s_tab s) 1 <> None /\ tget (s_tab s) 2 <> None /\
  (forall n o, refers (s_tab s) n = Some o -> is_end o -> pipe_no o < s_np s) /\
  (exists ret, start L pf true (chain_from (PFun false) cs) s = (s', Ok (ret, its)) /\ caller_fds ret = [x]) /\
  2 < logfd /\ 2 < maxfd /\
  (forall rs t argv, In (IProc rs t argv) its -> room L logfd rs t /\ find_free_fd rs < maxfd).
(** A step of one of the programs. *)
Definition prog_label (l : flabel) : bool := match l with FNet (NProc _) => true | _ => false end.
