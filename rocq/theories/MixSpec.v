(** Pipelines of programs and python functions: what they compute, without
    processes, pipes, handlers or schedules. *)
From Verif Require Import Py RedirModel Os PerformModel PerformSpec RunModel RunSpec RunTopSpec RunEnds IterModel IterSpec NetModel NetSpec SrcModel MixModel.

(** Function [f], given these lines and then the end of the iteration, yields
    exactly [vals] (None among them too) and ends with [e]; it need not have asked
    for everything. *)
Inductive fdoes : fn -> list bytes -> list (option bytes) -> iend -> Prop :=
| fdoes_end e lines : fdoes (FEnd e) lines [] e
| fdoes_give v k lines vals e : fdoes k lines vals e -> fdoes (FGive v k) lines (v :: vals) e
| fdoes_line k l lines vals e : fdoes (k (Some l)) lines vals e -> fdoes (FAsk k) (l :: lines) vals e
| fdoes_over k vals e : fdoes (k None) [] vals e -> fdoes (FAsk k) [] vals e.
(** The same for an item of a pipeline, in bytes; [ok]: it succeeds. *)
Inductive cdoes : code -> list N -> list N -> bool -> Prop :=
| cdoes_prog p inp out ok : does p inp out ok -> cdoes (CProg p) inp out ok
| cdoes_fun f inp lines vals e : is_lines inp lines -> fdoes f lines vals e ->
    cdoes (CFun f) inp (rendered vals) (match e with EStop => true | ERaise _ => false end).
(** One after the other, each reading what the one before wrote. *)
Inductive all_cdo : list code -> list N -> list N -> list bool -> Prop :=
| all_cdo_nil inp : all_cdo [] inp inp []
| all_cdo_cons c cs inp mid out ok oks : cdoes c inp mid ok -> all_cdo cs mid out oks -> all_cdo (c :: cs) inp out (ok :: oks).

(** A function that asks for all these lines and for the one after them before it
    ends. *)
Inductive asks_all : fn -> list bytes -> Prop :=
| asks_over k : asks_all (FAsk k) []
| asks_line k l lines : asks_all (k (Some l)) lines -> asks_all (FAsk k) (l :: lines)
| asks_give v k lines : asks_all k lines -> asks_all (FGive v k) lines.
Definition cwhole (c : code) (inp : list N) : Prop :=
  match c with CProg p => reads_all p inp | CFun f => exists lines, is_lines inp lines /\ asks_all f lines end.
(** Every value a function yields on these lines has, with its newline, at most
    [m] bytes. *)
Definition cshort (m : nat) (c : code) (inp : list N) : Prop :=
  match c with
  | CProg _ => True
  | CFun f => forall lines vals e b, is_lines inp lines -> fdoes f lines vals e -> In (Some b) vals -> List.length b < m
  end.
(** Every item but the first reads its whole input; values are short. *)
Inductive all_whole (m : nat) : list code -> list N -> Prop :=
| all_whole_nil inp : all_whole m [] inp
| all_whole_cons c cs inp mid ok : cwhole c inp -> cshort m c inp -> cdoes c inp mid ok -> all_whole m cs mid -> all_whole m (c :: cs) inp.
Definition well_fed (m : nat) (codes : list code) (inp : list N) : Prop :=
  match codes with [] => True | c :: cs => cshort m c inp /\ exists mid ok, cdoes c inp mid ok /\ all_whole m cs mid end.

(** An item as it is written: a command, or a python function. *)
Inductive stage := StCmd (ws : list string) | StFun.
Definition first_stage (c : stage) : pl := match c with StCmd ws => PCmd (map AWord ws) | StFun => PFun false end.
Definition next_stage (c : stage) : pl := match c with StCmd ws => PCmd (map AWord ws) | StFun => PFun true end.
(** c | cs... *)
Definition mixed_line (c : stage) (cs : list stage) : pl := fold_left (fun p d => PPipe p (next_stage d)) cs (first_stage c).
Definition runs_as (c : stage) (d : code) : Prop :=
  match c, d with StCmd _, CProg _ => True | StFun, CFun _ => True | _, _ => False end.
(** [c | cs...] was started with its output into a pipe, by a shell that has
    standard files and whose pipes are all older; [its] was started, and [x] is the
    descriptor the caller reads from.  Each child had room for its descriptors. *)
Definition mixed (L : limits) (pf : ofd -> bool) (logfd maxfd : nat) (c : stage) (cs : list stage)
    (s s' : st) (its : list item) (x : nat) : Prop :=
  refers (s_tab s) 0 <> None /\ refers (s_tab s) 1 <> None /\ tget (s_tab s) 2 <> None /\
  (forall n o, refers (s_tab s) n = Some o -> is_end o -> pipe_no o < s_np s) /\
  (exists ret, start L pf true (mixed_line c cs) s = (s', Ok (ret, its)) /\ caller_fds ret = [x]) /\
  2 < logfd /\ 2 < maxfd /\
  (forall rs t argv, In (IProc rs t argv) its -> room L logfd rs t /\ find_free_fd rs < maxfd).
(** What is there to read for the first item: a function at the beginning is not
    given any input. *)
Definition can_read (codes : list code) (inp : list N) : Prop := match codes with CFun _ :: _ => inp = [] | _ => True end.

(** A program that, whatever it reads, and as long as its writes succeed, writes
    [w] before it exits; it may go on after that. *)
Inductive writes_first : prog -> list N -> Prop :=
| wf_enough p : writes_first p []
| wf_write b k w : writes_first (k true) w -> writes_first (Writes b k) (b :: w)
| wf_read k w : (forall o, writes_first (k o) w) -> writes_first (Reads k) w.
(** A function that asks for at most [q] lines, whatever they are. *)
CoInductive asks_at_most : nat -> fn -> Prop :=
| aam_end q e : asks_at_most q (FEnd e)
| aam_give q v k : asks_at_most q k -> asks_at_most q (FGive v k)
| aam_ask q k : (forall o, asks_at_most q (k o)) -> asks_at_most (S q) (FAsk k).
(** A step of a program, or of a function's input. *)
Definition is_work (l : mlabel) : bool := match l with MProc _ | MReadable _ _ => true | _ => false end.
