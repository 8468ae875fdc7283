(** What is to be expected of running (c0 | c1 | ... | cn) with its input and output
    redirected to files. *)
From Verif Require Import Py RedirModel Os PerformModel PerformSpec RunModel RunSpec RunTopSpec RunEnds IterModel FileModel FileSpec NetModel NetSpec JobModel.

(** The pipeline with the input taken from a file and the output sent to one, if so
    wanted (base.py:90-97,105-135). *)
Definition redirected (c : list string) (cs : list (list string)) (inr outr : option redirect) : pl :=
  match inr, outr with
  | None, None => chain c cs
  | _, _ => PRedir (chain c cs) (match inr with Some r => [(0, r)] | None => [] end ++ match outr with Some r => [(1, r)] | None => [] end)
  end.
(** Redirects from and to a file that can be opened. *)
Definition from_path (L : limits) (r : redirect) (p : path) : Prop :=
  r_fd r = 0 /\ r_source r = SPath p /\ can_open L p (r_flag r) = true /\ r_flag r = O_RDONLY.
Definition to_path (L : limits) (r : redirect) (p : path) : Prop :=
  r_fd r = 1 /\ r_source r = SPath p /\ can_open L p (r_flag r) = true /\
  N.land (r_flag r) (N.lor O_WRONLY O_RDWR) <> 0%N.
(** It was started by a shell that has standard files and whose pipes are all older;
    [its] was started.  Each child had room for its descriptors.  Input and output are
    not the same file. *)
Definition launched_job (L : limits) (pf : ofd -> bool) (logfd maxfd : nat) (c : list string) (cs : list (list string)) (inr outr : option redirect)
    (s s' : st) (its : list item) : Prop :=
  refers (s_tab s) 0 <> None /\ refers (s_tab s) 1 <> None /\ tget (s_tab s) 2 <> None /\
  (forall n o, refers (s_tab s) n = Some o -> is_end o -> pipe_no o < s_np s) /\
  (forall n p f, refers (s_tab s) n <> Some (OFile p f)) /\
  (forall r, inr = Some r -> exists p, from_path L r p) /\
  (forall r, outr = Some r -> exists p, to_path L r p) /\
  (forall r r', inr = Some r -> outr = Some r' -> r_source r <> r_source r') /\
  (exists ret, start L pf false (redirected c cs inr outr) s = (s', Ok (ret, its))) /\
  2 < logfd /\ 2 < maxfd /\
  (forall rs t argv, In (IProc rs t argv) its -> room L logfd rs t /\ find_free_fd rs < maxfd).
(** What the first program can read: the file's content if its input is redirected,
    otherwise what there is on the shell's standard input. *)
Definition input_is (f0 : fs) (inr : option redirect) (typed inp : list N) : Prop :=
  match inr with
  | None => inp = typed
  | Some r => exists p, r_source r = SPath p /\ f0 p = Some inp
  end.
(** All processes have gone. *)
Definition all_gone (t : job) : Prop := forall i, nth i (j_procs t) None = None.
(** What has been written to the shell's own open file [o]. *)
Definition shown (o : ofd) (t : job) : list N -> Prop := fun w => j_term t = map (fun b => (o, b)) w.
(** The programs [progs] were started by that and have been run by some schedule [ls] up
    to [t]; [f0]: the files before, [typed]: what there is to read on the shell's input. *)
Definition ran (L : limits) (logfd maxfd cap : nat) (s s' : st) (its : list item) (f0 : fs) (progs : list prog) (typed : list N) (ls : list jlabel) (t : job) : Prop :=
  exists t0, begin_job L logfd maxfd its f0 progs typed = Some t0 /\ run_job L logfd maxfd cap s s' its t0 ls = Some t.
(** A step of one of the processes. *)
Definition by_process (l : jlabel) : bool := match l with JProc _ => true | JWait => false end.
