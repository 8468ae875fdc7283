(** Model of executing files and expressions: EnvScope.execute_file and
    execute_expr (/repo/pieshell/environ.py:252-264), the part of shell.main that
    uses them (shell.py:73-80) and the import of .pysh modules
    (/repo/pieshell/module.py), with python's code.InteractiveInterpreter,
    import machinery and exit status as far as they are used. *)
From Verif Require Import Py PathModel EnvModel.

(** How a statement ends: normally, with an exception, or with SystemExit. *)
Inductive outcome := Done | Raised | Exits (n : nat).
Section Run.
  (** [S]: everything statements can change (a scope and the world). *)
  Context {S : Type}.
  Definition stmt : Type := S -> S * outcome.
  (** A file's text: it does not compile, or is a list of statements. *)
  Inductive program := NotPython | Program (l : list stmt).
  (** exec(code, scope): until a statement ends otherwise than normally *)
  Fixpoint exec (l : list stmt) (s : S) : S * outcome :=
    match l with
    | [] => (s, Done)
    | x :: r => match x s with (s', Done) => exec r s' | (s', o) => (s', o) end
    end.
  (** code.InteractiveInterpreter.runsource: an exception of the compiler is
      shown (showsyntaxerror), one of the code too (runcode: except SystemExit:
      raise; except: self.showtraceback()).  [Some n]: SystemExit goes on.
      Simplification: source that is incomplete (runsource returns True) is
      treated like source that does not compile: nothing is executed. *)
  Definition runsource (p : program) (s : S) : S * option nat :=
    match p with
    | NotPython => (s, None)
    | Program l => match exec l s with (s', Exits n) => (s', Some n) | (s', _) => (s', None) end
    end.
  (** environ.py:252-261 execute_file; [None]: opening the file raises OSError *)
  Inductive ended := Returned | OSErr | SysExit (n : nat).
  Definition execute_file (f : option program) (s : S) : S * ended :=
    match f with
    | None => (s, OSErr)
    | Some p => match runsource p s with (s', Some n) => (s', SysExit n) | (s', None) => (s', Returned) end
    end.
  (** shell.py:78-80: the files in order *)
  Fixpoint execute_files (fs : list (option program)) (s : S) : S * ended :=
    match fs with
    | [] => (s, Returned)
    | f :: r => match execute_file f s with (s', Returned) => execute_files r s' | x => x end
    end.
  (** The exit status of the process: 1 after an uncaught exception. *)
  Definition status (e : ended) : nat := match e with Returned => 0 | OSErr => 1 | SysExit n => n end.
  Definition shell_files (fs : list (option program)) (s : S) : S * nat := let '(s', e) := execute_files fs s in (s', status e).
  (** shell.py:73-74, environ.py:263-264: one statement *)
  Definition shell_cmd (p : program) (s : S) : S * nat := let '(s', e) := execute_file (Some p) s in (s', status e).
  (** shell.py:75-77: the unpickled pipeline's run_interactive; an exception is
      not caught (C26: PipelineFailed, PipelineInterrupted, PipelineSuspended) *)
  Definition shell_pcmd (run : stmt) (s : S) : S * nat :=
    match run s with (s', Done) => (s', 0) | (s', Raised) => (s', 1) | (s', Exits n) => (s', n) end.

  (** ** Modules.  [m_scopes]: the state of the scope of each module in
      sys.modules; [fresh]: that of EnvScope(env=envScope["env"]()). *)
  Variable fresh : S.
  Definition modules : Type := dict text S.
  (** module.py:28-45 find_module: [paths] is sys.path (or the argument);
      [exists_] is os.path.exists; the name after the last dot.  Python: [last]. *)
  Definition last_name (fullname : text) : text := List.last (split_on c_dot fullname) [].
  Fixpoint find_file (exists_ : text -> bool) (paths : list text) (file : text) : option text :=
    match paths with
    | [] => None
    | p :: r => let q := path_join (match p with [] => t_dot | _ => p end) file in
                if exists_ q then Some q else find_file exists_ r file
    end.
  Definition find_module (exists_ : text -> bool) (paths : list text) (fullname : text) : option text :=
    find_file exists_ paths (last_name fullname ++ txt ".pysh").
  (** module.py:20-26 load_module: the module is in sys.modules before its file
      is executed and stays there. *)
  Definition load_module (files : text -> option program) (path fullname : text) (ms : modules) : modules * ended :=
    let s0 := match dget ms fullname with Some s => s | None => fresh end in
    let '(s', e) := execute_file (files path) s0 in (dset ms fullname s', e).
  (** The import statement for a name no other finder knows: sys.modules first,
      then the finders.  [old]: python before 3.12, whose import machinery calls
      find_module of finders without find_spec.  [None]: ModuleNotFoundError. *)
  Definition import_module (old : bool) (exists_ : text -> bool) (files : text -> option program) (paths : list text) (name : text) (ms : modules) : modules * option ended :=
    match dget ms name with
    | Some _ => (ms, Some Returned)
    | None => if old then match find_module exists_ paths name with
                          | Some p => let '(ms', e) := load_module files p name ms in (ms', Some e)
                          | None => (ms, None)
                          end
              else (ms, None)
    end.
End Run.
Arguments stmt : clear implicits.
Arguments program : clear implicits.
Arguments modules : clear implicits.
