(** Model of starting a pipeline: /repo/pieshell/pipeline/{command,function,
    pipe,group,redirect}.py [_run], redir.py make_pipe(s) / close_source_fds and
    utils/pipe.py. *)
From Verif Require Import Py RedirModel Os PerformModel.

(** Pipeline expressions.
    - [PCmd]: command.py:167 Command; its arguments (command.py:54-56).
    - [PFun]: function.py:28 Function; the flag tells whether it is called with
      an input iterator (function.py:87-90) or is itself an iterator.
    - [PPipe], [PGroup], [PRedir]: pipe.py:26, group.py:26, redirect.py:27.
    - [PBuiltin]: a builtin such as cd or bg that starts no process and sets no
      _redirects attribute (builtins.py:30,50,87).
    Simplification: words are opaque here (CommandModel.v models expansion);
    dictionary arguments holding pipelines are treated as positional. *)
Inductive pl :=
| PCmd (args : list arg)
| PFun (takes_input : bool)
| PPipe (src dst : pl)
| PGroup (a b : pl)
| PRedir (p : pl) (rs : redirects)
| PBuiltin
with arg :=
| AWord (w : string)
| APipeline (p : pl)        (* command.py:184-185 *)
| AFunction                 (* command.py:186-188: direction stdin *)
| AIterator.                (* command.py:189-191: direction stdout *)

(** One word of the argument vector: literal, or /dev/fd/N (command.py:211). *)
Inductive aword := Word (w : string) | DevFd (n : nat).

(** A started item: a forked process with the redirects it performs, the table
    it was forked with and its argument vector (command.py:224-238), or a
    function with the descriptors it owns (function.py:105-111). *)
Inductive item :=
| IProc (rs : redirects) (t : tab) (argv : list aword)
| IFun (infd : option nat) (outfd : nat) (rs : redirects).

(** State of the shell process: descriptor table and the number of pipes and
    temporary files created so far (for naming them). *)
Record st := mkSt { s_tab : tab; s_np : nat; s_nt : nat }.

Definition RM (A : Type) := st -> st * res A.
Definition rret {A} (a : A) : RM A := fun s => (s, Ok a).
Definition rraise {A} (e : exn) : RM A := fun s => (s, Err e).
Definition rbind {A B} (m : RM A) (f : A -> RM B) : RM B :=
  fun s => match m s with (s', Ok a) => f a s' | (s', Err e) => (s', Err e) end.
Notation "'rdo' x <- m ; f" := (rbind m (fun x => f)) (at level 200, x pattern, m at level 100, f at level 200).
Definition lift {A} (m : TM A) : RM A := fun s =>
  let '(t', r) := m (s_tab s) in (mkSt t' (s_np s) (s_nt s), r).
Definition rlift {A} (r : res A) : RM A := fun s => (s, r).
Definition get_tab : RM tab := fun s => (s, Ok (s_tab s)).

(** The [pipe] attribute used as the source of another redirect
    (pipe.py:45, command.py:206). *)
Definition pipe_source (o : option pipeend) : source :=
  match o with None => SNone | Some (PFd n) => SInt n | Some _ => SObj end.

Section Run.
  Variable L : limits.
  (** Which open files the event loop accepts (epoll refuses regular files with
      EPERM); pipes are always accepted, see [pollable] below. *)
  Variable pollable_file : ofd -> bool.

  (** utils/pipe.py:17-26 pipe_cloexec: both descriptors are allocated or
      none; close-on-exec is set. *)
  Definition os_pipe : RM (nat * nat) := fun s =>
    let r := lowest (s_tab s) in
    let t1 := tset (s_tab s) r (Some (mkEnt (OPipeR (s_np s)) true)) in
    let w := lowest t1 in
    if (r <? lim L) && (w <? lim L)
    then (mkSt (tset t1 w (Some (mkEnt (OPipeW (s_np s)) true))) (S (s_np s)) (s_nt s), Ok (r, w))
    else (s, Err (OSError EMFILE)).

  (** tempfile.mkstemp: a fresh file, close-on-exec. *)
  Definition mkstemp : RM (nat * nat) := fun s =>
    let n := lowest (s_tab s) in
    if n <? lim L
    then (mkSt (tset (s_tab s) n (Some (mkEnt (OTmp (s_nt s)) true))) (s_np s) (S (s_nt s)), Ok (n, s_nt s))
    else (s, Err (OSError EMFILE)).

  (** self.flag & os.O_WRONLY *)
  Definition writes (r : redirect) : bool := negb (N.eqb (N.land (r_flag r) O_WRONLY) 0).

  (** redir.py:120-134 Redirect.make_pipe *)
  Definition make_pipe (r : redirect) : RM redirect :=
    match r_source r with
    | SPIPE =>
        rdo (rfd, wfd) <- os_pipe;
        if writes r
        then rret (mkRedirect (r_fd r) (SInt wfd) (r_flag r) (r_mode r) (Some (PFd rfd)) false)
        else rret (mkRedirect (r_fd r) (SInt rfd) (r_flag r) (r_mode r) (Some (PFd wfd)) false)
    | STMP | SSTRING =>
        if writes r then
          rdo (fd, k) <- mkstemp;
          rret (mkRedirect (r_fd r) (SInt fd) (r_flag r) (r_mode r)
                  (Some (match r_source r with STMP => PTmp k | _ => PString k end)) false)
        else rraise PlainException
    | _ => rret r
    end.

  (** redir.py:194-196 Redirects.make_pipes *)
  Fixpoint make_pipe_list (l : list redirect) : RM (list redirect) :=
    match l with
    | [] => rret []
    | r :: l' => rdo r' <- make_pipe r; rdo rest <- make_pipe_list l'; rret (r' :: rest)
    end.
  Definition make_pipes (rs : redirects) : RM redirects :=
    rdo l <- make_pipe_list (dvals rs);
    rlift (new_redirects (map IRedirect l)).

  (** redir.py:99-103 close_source_fd, 225-227 close_source_fds *)
  Definition close_source_fd (r : redirect) : TM unit :=
    match r_source r with
    | SInt n => if r_borrowed r then tret tt else os_close n
    | _ => tret tt
    end.
  Fixpoint close_source_list (l : list redirect) : TM unit :=
    match l with
    | [] => tret tt
    | r :: l' => close_source_fd r ;; close_source_list l'
    end.
  Definition close_source_fds (rs : redirects) : TM unit := close_source_list (dvals rs).

  (** iterio.py:39-48 IOHandler.enable: loop.add_reader / add_writer. *)
  Definition pollable (o : ofd) : bool :=
    match o with OPipeR _ | OPipeW _ => true | OTmp _ => false | _ => pollable_file o end.
  Definition enable (fd : nat) : TM unit := fun t =>
    match tget t fd with
    | Some e => if pollable (e_ofd e) then (t, Ok tt) else (t, Err (OSError EPERM))
    | None => (t, Err (OSError EBADF))
    end.

  (** redir.py:228-234, a Redirects attribute, as used by the callers below. *)
  Definition std (rs : redirects) (name : string) : RM redirect := rlift (get_std rs name).

  (** function.py:69-116 Function._run.  The body of the function is not run
      here (a generator or coroutine does not start before it is iterated). *)
  Definition run_function (takes_input : bool) (rs : redirects) : RM (redirects * list item) :=
    rdo made <- make_pipes rs;
    rdo infd <- (if takes_input then
                   rdo r <- std made "stdin";
                   rdo fd <- lift (redirect_open L r false);
                   rdo _ <- lift (enable fd);
                   rret (Some fd)
                 else rret None);
    rdo r <- std made "stdout";
    rdo outfd <- lift (redirect_open L r false);
    rdo _ <- lift (enable outfd);
    rdo _ <- lift (close_source_fds made);
    rret (made, [IFun infd outfd made]).

  (** Redirects(child_redirects).redirect(name, src): pipe.py:44-45,
      command.py:197-199 *)
  Definition with_redirect (rs : redirects) (name : string) (src : source) : res redirects :=
    let* c := new_redirects [IRedirects rs] in redirect_op c (FdName name) src None.

  (** The result of a [_run]: the [_redirects] attribute ([None] when the builtin
      never set it, in which case attribute access builds a command object) and
      the list of running items. *)
  Definition rresult := (option redirects * list item)%type.

  (** self.src._redirects.<name>.pipe *)
  Definition pipe_of (o : option redirects) (name : string) : res source :=
    match o with
    | None => Ok SObj
    | Some rs => let* r := get_std rs name in Ok (pipe_source (r_pipe r))
    end.

  (** command.py:203-207: the argument pipe becomes a redirect of the command
      itself, at a free descriptor. *)
  Definition add_arg_redirect (made : redirects) (src : source) (flag : N) : res (redirects * nat) :=
    let fd := find_free_fd made in
    let* made' := redirect_op made (FdInt fd) src (Some flag) in Ok (made', fd).

  (** pipe.py:37-53, group.py:36-50, redirect.py:36-43, command.py:213-245 *)
  Fixpoint run (p : pl) (rs : redirects) : RM rresult :=
    match p with
    | PBuiltin => rret (None, [])
    | PFun inp => rdo (r, its) <- run_function inp rs; rret (Some r, its)
    | PRedir q crs =>
        rdo m <- rlift (merge rs crs); run q m
    | PPipe a b =>
        rdo child0 <- rlift (new_redirects [IRedirects rs]);
        let child := borrow child0 in
        rdo rsa <- rlift (with_redirect child "stdout" SPIPE);
        rdo (oa, ia) <- run a rsa;
        rdo src <- rlift (pipe_of oa "stdout");
        rdo rsb <- rlift (with_redirect child "stdin" src);
        rdo (ob, ib) <- run b rsb;
        match oa, ob with
        | Some ra, Some rb =>
            rdo m <- rlift (merge ra rb);
            rdo i <- std ra "stdin";
            rdo m1 <- rlift (register m i);
            rdo o <- std rb "stdout";
            rdo m2 <- rlift (register m1 o);
            rdo _ <- lift (close_source_fds rs);
            rret (Some m2, ia ++ ib)
        | _, _ => rraise KeyError
        end
    | PGroup a b =>
        rdo child0 <- rlift (new_redirects [IRedirects rs]);
        let child := borrow child0 in
        rdo (oa, ia) <- run a child;
        rdo (ob, ib) <- run b child;
        match oa, ob with
        | Some ra, Some rb =>
            rdo m <- rlift (merge ra rb);
            rdo _ <- lift (close_source_fds rs);
            rret (Some m, ia ++ ib)
        | None, _ =>
            rdo _ <- lift (close_source_fds rs);
            rret (None, ia ++ ib)
        | _, None => rraise KeyError
        end
    | PCmd args =>
        rdo made <- make_pipes rs;
        rdo orig0 <- rlift (new_redirects [IRedirects made]);
        let orig := borrow orig0 in
        (* command.py:133-153 _arg_list with 180-211 _handle_arg_pipes *)
        rdo (made', its, argv) <-
          (fix run_args (l : list arg) (made : redirects) : RM (redirects * list item * list aword) :=
             match l with
             | [] => rret (made, [], [])
             | AWord w :: l' =>
                 rdo (m, its, argv) <- run_args l' made;
                 rret (m, its, Word w :: argv)
             | APipeline q :: l' =>
                 rdo sub <- rlift (with_redirect orig "stdout" SPIPE);
                 rdo (o, its1) <- run q sub;
                 rdo src <- rlift (pipe_of o "stdout");
                 rdo (made1, fd) <- rlift (add_arg_redirect made src O_RDONLY);
                 rdo (m, its2, argv) <- run_args l' made1;
                 rret (m, its1 ++ its2, DevFd fd :: argv)
             | AIterator :: l' =>
                 rdo sub <- rlift (with_redirect orig "stdout" SPIPE);
                 rdo (r, its1) <- run_function false sub;
                 rdo src <- rlift (pipe_of (Some r) "stdout");
                 rdo (made1, fd) <- rlift (add_arg_redirect made src O_RDONLY);
                 rdo (m, its2, argv) <- run_args l' made1;
                 rret (m, its1 ++ its2, DevFd fd :: argv)
             | AFunction :: l' =>
                 rdo sub <- rlift (with_redirect orig "stdin" SPIPE);
                 rdo (r, its1) <- run_function true sub;
                 rdo src <- rlift (pipe_of (Some r) "stdin");
                 rdo (made1, fd) <- rlift (add_arg_redirect made src O_WRONLY);
                 rdo (m, its2, argv) <- run_args l' made1;
                 rret (m, its1 ++ its2, DevFd fd :: argv)
             end) args made;
        rdo t <- get_tab;
        rdo _ <- lift (close_source_fds made');
        rret (Some made', its ++ [IProc made' t argv])
    end.

  (** base.py:143-150 Pipeline.run up to the creation of the RunningPipeline
      (the deep copy is modelled in CopyModel.v): the environment's redirects
      followed by the given ones. *)
  Definition run_top (env_redirects : redirects) (extra : list redirect) (p : pl) : RM rresult :=
    rdo rs <- rlift (new_redirects (IRedirects env_redirects :: map IRedirect extra));
    run p rs.
End Run.
