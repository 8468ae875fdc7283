(** What a user sees of a started pipeline. *)
From Verif Require Import Py RedirModel Os PerformModel PerformSpec RunModel RunSpec.

(** Running in an environment with the default redirects (environ.py:55-58): the
    shell's stdin and stdout, and captured stderr.  [piped] adds
    Redirect("stdout", PIPE) as iteration does (base.py:172,182). *)
Definition top_env (o0 o1 : ofd) (piped : bool) : wenv :=
  let e := [(0, (WOfd o0, O_RDONLY)); (1, (WOfd o1, out_flags)); (2, (WTmp, out_flags))] in
  if piped then ask_stdout e else e.
Definition stdout_pipe : redirect := mkRedirect 1 SPIPE out_flags default_mode None false.
Definition start (L : limits) (pf : ofd -> bool) (piped : bool) (p : pl) : RM rresult :=
  rdo env <- rlift default_redirects;
  run_top L pf env (if piped then [stdout_pipe] else []) p.

(** There is room for the child to shuffle its descriptors. *)
Definition room (L : limits) (logfd : nat) (rs : redirects) (t : tab) : Prop :=
  find_free_fd rs + List.length rs <= lim L /\
  find_free_fd rs + List.length rs <= logfd /\
  exists j, find_free_fd rs + List.length rs <= j /\ j < lim L /\ tget t j = None.

(** The descriptors named by /dev/fd/N arguments. *)
Definition arg_numbers (argv : list aword) : list nat :=
  flat_map (fun a => match a with DevFd n => [n] | Word _ => [] end) argv.

(** What the program behind a process finds on descriptor [n] after exec. *)
Definition program_fd (L : limits) (logfd maxfd : nat) (rs : redirects) (t : tab) (n : nat) : option ofd :=
  refers (exec_tab (fst (perform L logfd maxfd rs t))) n.

(** A started item is connected as the specification says.  For a process: every
    descriptor except those of its argument pipes is exactly the wired one (in
    particular closed when nothing is wired there), and every argument is its
    word or a /dev/fd/N above 2 on which the program finds the argument's pipe
    end.  For a function: its descriptors in the shell. *)
Definition arg_connected (see : nat -> option ofd) (w : warg) (a : aword) : Prop :=
  match w, a with
  | WWord x, Word y => x = y
  | WArg o, DevFd n => 2 < n /\ see n = Some o
  | _, _ => False
  end.
Definition connected (L : limits) (logfd maxfd : nat) (shell : tab) (lf : leaf) (it : item) : Prop :=
  match lf, it with
  | LProc io ws, IProc rs t argv =>
      room L logfd rs t -> find_free_fd rs < maxfd ->
      snd (perform L logfd maxfd rs t) = None /\
      NoDup (arg_numbers argv) /\
      Forall2 (arg_connected (program_fd L logfd maxfd rs t)) ws argv /\
      (forall n, n < maxfd -> n <> logfd -> ~ In n (arg_numbers argv) ->
         program_fd L logfd maxfd rs t n = io n)
  | LFun inp out, IFun infd outfd _ =>
      match inp, infd with
      | Some o, Some fd => refers shell fd = Some o
      | None, None => True
      | _, _ => False
      end /\ refers shell outfd = out
  | _, _ => False
  end.

(** The descriptors of the shell that a started pipeline legitimately uses: those
    of its python functions and the end of the stdout pipe handed to the caller. *)
Definition function_fds (its : list item) : list nat :=
  flat_map (fun it => match it with
                      | IFun (Some a) b _ => [a; b] | IFun None b _ => [b] | IProc _ _ _ => [] end) its.
Definition caller_fds (o : option redirects) : list nat :=
  match o with
  | Some rs => match dget rs 1 with
               | Some r => match r_pipe r with Some (PFd n) => [n] | _ => [] end
               | None => [] end
  | None => []
  end.

(** c1 | c2 | ... | cn, associated to the left as python does. *)
Fixpoint chain_from (p : pl) (cs : list (list string)) : pl :=
  match cs with
  | [] => p
  | c :: cs' => chain_from (PPipe p (PCmd (map AWord c))) cs'
  end.
Definition chain (c : list string) (cs : list (list string)) : pl := chain_from (PCmd (map AWord c)) cs.

(** The command whose exit code counts. *)
Fixpoint rightmost (p : pl) : pl :=
  match p with
  | PPipe _ b | PGroup _ b => rightmost b
  | PRedir q _ => rightmost q
  | p => p
  end.
Fixpoint no_builtin (p : pl) : Prop :=
  match p with
  | PPipe a b | PGroup a b => no_builtin a /\ no_builtin b
  | PRedir q _ => no_builtin q
  | PBuiltin => False
  | _ => True
  end.
(** An argument vector made from given arguments. *)
Definition argv_of (a : arg) (w : aword) : Prop :=
  match a, w with
  | AWord x, Word y => x = y
  | AWord _, DevFd _ => False
  | _, DevFd _ => True
  | _, Word _ => False
  end.
Definition item_of (p : pl) (it : item) : Prop :=
  match p, it with
  | PCmd args, IProc _ _ argv => Forall2 argv_of args argv
  | PFun inp, IFun infd _ _ => inp = match infd with Some _ => true | None => false end
  | _, _ => False
  end.

(** The standard files of a started item. *)
Definition leaf_out (l : leaf) : option ofd := match l with LProc io _ => io 1 | LFun _ out => out end.
Definition leaf_in (l : leaf) : option ofd := match l with LProc io _ => io 0 | LFun inp _ => inp end.

(** An argument of a command is wired: a word is passed as it is; the output of
    an argument pipeline or iterator is readable through a pipe written by one
    of the processes or functions [ls] started for the arguments; what is
    written to a function argument is read by that function. *)
Definition arg_wired (ls : list leaf) (a : arg) (w : warg) : Prop :=
  match a with
  | AWord x => w = WWord x
  | APipeline _ | AIterator => exists k lf, w = WArg (OPipeR k) /\ In lf ls /\ leaf_out lf = Some (OPipeW k)
  | AFunction => exists k lf, w = WArg (OPipeW k) /\ In lf ls /\ leaf_in lf = Some (OPipeR k)
  end.
Definition pipe_no (o : ofd) : nat := match o with OPipeR k | OPipeW k => k | _ => 0 end.
Definition arg_ofds (ws : list warg) : list ofd :=
  flat_map (fun a => match a with WArg o => [o] | WWord _ => [] end) ws.

(** A started item holds an end of a pipe. *)
Definition holds (l : leaf) (o : ofd) : Prop :=
  match l with
  | LProc io ws => (exists n, io n = Some o) \/ In (WArg o) ws
  | LFun inp out => inp = Some o \/ out = Some o
  end.

(** The two errors that can make starting a well-formed pipeline fail: no
    descriptor left, and a python function reading or writing a regular file,
    which the event loop refuses. *)
Definition errs (e : exn) : Prop := e = OSError EMFILE \/ e = OSError EPERM.

(** An argument of a started command: a word is itself; a pipeline, iterator or
    function argument is /dev/fd/N with N above 2, where the program finds the end
    of a pipe whose other end one of [ls] has as its output (input). *)
Definition arg_started (see : nat -> option ofd) (ls : list leaf) (a : arg) (w : aword) : Prop :=
  match a, w with
  | AWord x, Word y => x = y
  | APipeline _, DevFd n | AIterator, DevFd n => 2 < n /\ exists k lf, see n = Some (OPipeR k) /\ In lf ls /\ leaf_out lf = Some (OPipeW k)
  | AFunction, DevFd n => 2 < n /\ exists k lf, see n = Some (OPipeW k) /\ In lf ls /\ leaf_in lf = Some (OPipeR k)
  | _, _ => False
  end.

(** A started item has an open file on some descriptor: a process whose
    descriptors could be set up, after exec; a function in the shell. *)
Definition item_holds (L : limits) (logfd maxfd : nat) (shell : tab) (it : item) (o : ofd) : Prop :=
  match it with
  | IProc rs t _ => room L logfd rs t /\ find_free_fd rs < maxfd /\
                    exists n, n < maxfd /\ n <> logfd /\ program_fd L logfd maxfd rs t n = Some o
  | IFun infd outfd _ => (exists fd, infd = Some fd /\ refers shell fd = Some o) \/ refers shell outfd = Some o
  end.
