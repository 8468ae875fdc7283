(** Model of what happens in the forked child: /repo/pieshell/pipeline/command.py
    171-178 (_child) and 224-234 (the pid == 0 branch of _run), of
    SubShell._child (builtins.py:182-194), of os.execvpe and os.get_exec_path of
    the standard library as called there, and of the exit code a RunningPipeline
    reports (running.py:123-143). *)
From Verif Require Import Py RedirModel Os PerformModel PathModel EnvModel ExpandModel CommandModel.

(** Exceptions, as far as the handlers distinguish them: an Exception with an
    errno attribute (OSError), one without (TypeError, ValueError, IndexError,
    AttributeError), and those that [except Exception] does not catch. *)
Inductive base_exc := BInterrupt | BExit (code : N).
Inductive exc := XErrno (e : N) | XPlain | XBase (b : base_exc).

(** Errno values used below. *)
Definition n_ENOENT : N := 2%N.
Definition n_ENOTDIR : N := 20%N.

(** How the operating system answers the child: chdir(2); execve(2) of a path
    (in a given directory; None means the program is executed); write(2) to an
    open file. *)
Record kernel := mkKernel {
  k_chdir : text -> option N;
  k_exec : text -> text -> option N;
  k_write : ofd -> option N }.

(** When SIGINT is delivered to the child: never, before exec, or while the
    exception handler of _run runs. *)
Inductive sigint := Never | BeforeExec | InHandler.

(** How the forked child ends up: it executes a program; it exits; or an
    exception leaves _run in the child, which then goes on running the code that
    called the shell, beside the parent. *)
Inductive ending :=
| Program (file : text) (argv : list text) (vars : list (text * text)) (cwd : text) (t : tab)
| Exits (status : N)
| GoesOn (x : exc).

(** The child's own state: descriptors, working directory, and the absolute
    names of the files it has tried to open so far. *)
Record cstate := mkCs { cs_tab : tab; cs_cwd : text; cs_opened : list text }.

(** Exported variables: environ.py:63-65; a value assigned through the scope
    (environ.py:211-212) need not be a string. *)
Definition envs := list (text * option text).

(** Strings execve accepts: no NUL; no lone surrogate except those of
    surrogateescape (os.fsencode). *)
Definition char_ok (c : N) : bool :=
  negb (N.eqb c 0) && negb ((55296 <=? c)%N && (c <=? 57343)%N && negb ((56448 <=? c)%N && (c <=? 56575)%N)).
Definition str_ok (s : text) : bool := forallb char_ok s.
(** posixmodule.c parse_envlist: a name is not empty and has no = after its
    first character. *)
Definition name_ok (k : text) : bool :=
  match k with [] => false | _ :: r => negb (existsb (N.eqb 61) r) end.
Fixpoint env_strings (e : envs) : option (list (text * text)) :=
  match e with
  | [] => Some []
  | (k, Some v) :: r =>
      if name_ok k && str_ok k && str_ok v
      then match env_strings r with Some x => Some ((k, v) :: x) | None => None end
      else None
  | (_, None) :: _ => None
  end.
(** posixmodule.c parse_arglist and the check of the first element. *)
Definition argv_strings (ws : list word) : option (list text) :=
  match exec_argv ws with
  | Ok (a :: r) => if forallb str_ok (a :: r) && negb (text_eqb a []) then Some (a :: r) else None
  | _ => None
  end.
(** os.get_exec_path(env): env.get('PATH'), or os.defpath; split at colons. *)
Definition t_PATH : text := txt "PATH".
Definition def_path : text := txt "/bin:/usr/bin".
Fixpoint assoc (e : list (text * text)) (k : text) : option text :=
  match e with
  | [] => None
  | (k', v) :: r => if text_eqb k k' then Some v else assoc r k
  end.
Definition exec_path (e : list (text * text)) : list text :=
  split_on 58%N (match assoc e t_PATH with Some p => p | None => def_path end).

Section Child.
  Variable K : kernel.
  (** os._execvpe: the loop over the directories of PATH *)
  Fixpoint search (cwd : text) (dirs : list text) (file : text) (saved last : option N) : text + exc :=
    match dirs with
    | [] => match saved, last with
            | Some e, _ => inr (XErrno e)
            | None, Some e => inr (XErrno e)
            | None, None => inr XPlain
            end
    | d :: dirs' =>
        let full := path_join d file in
        match k_exec K cwd full with
        | None => inl full
        | Some e =>
            if N.eqb e n_ENOENT || N.eqb e n_ENOTDIR then search cwd dirs' file saved (Some e)
            else search cwd dirs' file (match saved with None => Some e | _ => saved end) (Some e)
        end
    end.
  (** os.execvpe(args[0], args, env); [path.dirname(file)] is not empty exactly
      when the name contains a slash. *)
  Definition execvpe (cwd : text) (ws : list word) (vars : envs) : (text * list text * list (text * text)) + exc :=
    match argv_strings ws, env_strings vars with
    | Some argv, Some e =>
        let file := hd [] argv in
        match (if existsb (N.eqb c_slash) file
               then match k_exec K cwd file with None => inl file | Some n => inr (XErrno n) end
               else search cwd (exec_path e) file None None) with
        | inl p => inl (p, argv, e)
        | inr x => inr x
        end
    | _, _ => inr XPlain
    end.

  Variable L : limits.
  Variable logfd maxfd : nat.
  (** redir.py:205-213 Redirects.perform in the child: an exception is swallowed.
      Relative file names are looked up in the directory the child is in now.
      Simplification: all files are listed, also those after a failure; a
      temporary file is named absolutely and not listed. *)
  Definition opened_names (cwd : text) (rs : redirects) : list text :=
    flat_map (fun r => match r_source r with
                       | SPath (PName s) => [path_join cwd (txt s)]
                       | _ => [] end) (dvals rs).
  Definition do_perform (rs : redirects) (c : cstate) : cstate :=
    mkCs (fst (perform L logfd maxfd rs (cs_tab c))) (cs_cwd c) (cs_opened c ++ opened_names (cs_cwd c) rs).
  (** os.chdir(self._env._cwd) *)
  Definition do_chdir (dir : text) (c : cstate) : cstate * option exc :=
    match k_chdir K dir with
    | Some e => (c, Some (XErrno e))
    | None => (mkCs (cs_tab c) dir (cs_opened c), None)
    end.
  (** command.py:175-178 Command._child *)
  Definition command_child (rs : redirects) (dir : text) (ws : list word) (vars : envs) (c : cstate)
      : cstate * ((text * list text * list (text * text)) + exc) :=
    let c1 := do_perform rs c in
    match do_chdir dir c1 with
    | (c2, Some x) => (c2, inr x)
    | (c2, None) => (c2, execvpe (cs_cwd c2) ws vars)
    end.
  (** sys.stderr.write of a line in the child: descriptor 2 as it is now. *)
  Definition write_stderr (t : tab) : option N :=
    match tget t 2 with
    | None => Some 9%N
    | Some e => k_write K (e_ofd e)
    end.
  (** command.py:226-234: [except Exception], the message, os._exit(ecode).
      os._exit(-1) gives status 255, os._exit(n) gives n modulo 256. *)
  Definition status_of (x : exc) : N :=
    match x with XErrno e => (e mod 256)%N | _ => 255%N end.
  Definition handler (sig : sigint) (t : tab) (x : exc) : ending :=
    match x with
    | XBase b => GoesOn (XBase b)
    | _ => match sig with
           | InHandler => GoesOn (XBase BInterrupt)
           | _ => match write_stderr t with
                  | Some e => GoesOn (XErrno e)
                  | None => Exits (status_of x)
                  end
           end
    end.
  (** command.py:224-234 for a Command.  Result: the ending and the files the
      child tried to open. *)
  Definition child (sig : sigint) (rs : redirects) (dir : text) (ws : list word) (vars : envs) (c : cstate) : ending * list text :=
    match sig with
    | BeforeExec => (GoesOn (XBase BInterrupt), [])
    | _ =>
        match command_child rs dir ws vars c with
        | (c', inl (p, argv, e)) => (Program p argv e (cs_cwd c') (exec_tab (cs_tab c')), cs_opened c')
        | (c', inr x) => (handler sig (cs_tab c') x, cs_opened c')
        end
    end.

  (** running.py:123-143: how a process or function of a pipeline ended; a
      function has exit_code 0 in any case (BaseRunningItem.exit_code). *)
  Inductive item_end := PEnd (status : N) | FEnd (failed : bool).
  Definition is_failed (i : item_end) : bool := match i with PEnd s => negb (N.eqb s 0) | FEnd f => f end.
  Definition exit_code (l : list item_end) : option N :=
    match rev l with
    | [] => None
    | PEnd s :: _ => Some s
    | FEnd _ :: _ => Some 0%N
    end.
  (** What run_interactive() of the pipeline in the subshell does: it is waited
      for and raises PipelineFailed if an item failed (running.py:87-104), or
      raises another Exception or KeyboardInterrupt. *)
  Inductive inner := IEnded (l : list item_end) | IRaises (x : exc).
  (** builtins.py:182-194 SubShell._child.  Leaving by sys.exit is SystemExit,
      which [except Exception] does not catch. *)
  Definition subshell_child (rs : redirects) (dir : text) (i : inner) (c : cstate) : cstate * exc :=
    let c1 := do_perform rs c in
    match do_chdir dir c1 with
    | (c2, Some x) => (c2, x)
    | (c2, None) =>
        let caught (code : option N) :=
          match write_stderr (cs_tab c2) with
          | Some e => XErrno e
          | None => match code with Some n => XBase (BExit n) | None => XPlain end
          end in
        (c2, match i with
             | IEnded l => if existsb is_failed l then caught (exit_code l) else XBase (BExit 0)
             | IRaises (XBase b) => XBase b
             | IRaises _ => caught (Some 1%N)
             end)
    end.
  Definition subshell (sig : sigint) (rs : redirects) (dir : text) (i : inner) (c : cstate) : ending :=
    match sig with
    | BeforeExec => GoesOn (XBase BInterrupt)
    | _ => let '(c', x) := subshell_child rs dir i c in handler sig (cs_tab c') x
    end.
End Child.
