(** The interpreter of RunModel.v once more, keeping the list of items started so
    far also when starting raises: pipe.py:37-53, group.py:36-50,
    redirect.py:36-43, command.py:133-245, function.py:69-116.  A process is
    started by os.fork (command.py:224), before the redirects are closed
    (command.py:240); a function by creating its RunningFunction
    (function.py:105-111). *)
From Verif Require Import Py RedirModel Os PerformModel RunModel RunTopSpec.

Definition SM (A : Type) := st -> st * list item * res A.
Definition quiet {A} (m : RM A) : SM A := fun s => let '(s', r) := m s in (s', [], r).
Definition sret {A} (a : A) : SM A := quiet (rret a).
Definition began (i : item) : SM unit := fun s => (s, [i], Ok tt).
Definition sbind {A B} (m : SM A) (f : A -> SM B) : SM B :=
  fun s => match m s with
           | (s', l, Ok a) => let '(s'', l', r) := f a s' in (s'', l ++ l', r)
           | (s', l, Err e) => (s', l, Err e)
           end.
Notation "'sdo' x <- m ; f" := (sbind m (fun x => f)) (at level 200, x pattern, m at level 100, f at level 200).

Section Launch.
  Variable L : limits.
  Variable pollable_file : ofd -> bool.
  (** function.py:69-116 *)
  Definition launch_function (takes_input : bool) (rs : redirects) : SM (redirects * list item) :=
    sdo made <- quiet (make_pipes L rs);
    sdo infd <- quiet (if takes_input then
                   rdo r <- std made "stdin";
                   rdo fd <- lift (redirect_open L r false);
                   rdo _ <- lift (enable pollable_file fd);
                   rret (Some fd)
                 else rret None);
    sdo r <- quiet (std made "stdout");
    sdo outfd <- quiet (lift (redirect_open L r false));
    sdo _ <- quiet (lift (enable pollable_file outfd));
    sdo _ <- began (IFun infd outfd made);
    sdo _ <- quiet (lift (close_source_fds made));
    sret (made, [IFun infd outfd made]).
  (** pipe.py:37-53, group.py:36-50, redirect.py:36-43, command.py:213-245 *)
  Fixpoint launch (p : pl) (rs : redirects) : SM rresult :=
    match p with
    | PBuiltin => sret (None, [])
    | PFun inp => sdo (r, its) <- launch_function inp rs; sret (Some r, its)
    | PRedir q crs => sdo m <- quiet (rlift (merge rs crs)); launch q m
    | PPipe a b =>
        sdo child0 <- quiet (rlift (new_redirects [IRedirects rs]));
        let child := borrow child0 in
        sdo rsa <- quiet (rlift (with_redirect child "stdout" SPIPE));
        sdo (oa, ia) <- launch a rsa;
        sdo src <- quiet (rlift (pipe_of oa "stdout"));
        sdo rsb <- quiet (rlift (with_redirect child "stdin" src));
        sdo (ob, ib) <- launch b rsb;
        match oa, ob with
        | Some ra, Some rb =>
            quiet (rdo m <- rlift (merge ra rb);
                   rdo i <- std ra "stdin";
                   rdo m1 <- rlift (register m i);
                   rdo o <- std rb "stdout";
                   rdo m2 <- rlift (register m1 o);
                   rdo _ <- lift (close_source_fds rs);
                   rret (Some m2, ia ++ ib))
        | _, _ => quiet (rraise KeyError)
        end
    | PGroup a b =>
        sdo child0 <- quiet (rlift (new_redirects [IRedirects rs]));
        let child := borrow child0 in
        sdo (oa, ia) <- launch a child;
        sdo (ob, ib) <- launch b child;
        match oa, ob with
        | Some ra, Some rb =>
            quiet (rdo m <- rlift (merge ra rb);
                   rdo _ <- lift (close_source_fds rs);
                   rret (Some m, ia ++ ib))
        | None, _ =>
            quiet (rdo _ <- lift (close_source_fds rs);
                   rret (None, ia ++ ib))
        | _, None => quiet (rraise KeyError)
        end
    | PCmd args =>
        sdo made <- quiet (make_pipes L rs);
        sdo orig0 <- quiet (rlift (new_redirects [IRedirects made]));
        let orig := borrow orig0 in
        sdo (made', its, argv) <-
          (fix launch_args (l : list arg) (made : redirects) : SM (redirects * list item * list aword) :=
             match l with
             | [] => sret (made, [], [])
             | AWord w :: l' =>
                 sdo (m, its, argv) <- launch_args l' made;
                 sret (m, its, Word w :: argv)
             | APipeline q :: l' =>
                 sdo sub <- quiet (rlift (with_redirect orig "stdout" SPIPE));
                 sdo (o, its1) <- launch q sub;
                 sdo src <- quiet (rlift (pipe_of o "stdout"));
                 sdo (made1, fd) <- quiet (rlift (add_arg_redirect made src O_RDONLY));
                 sdo (m, its2, argv) <- launch_args l' made1;
                 sret (m, its1 ++ its2, DevFd fd :: argv)
             | AIterator :: l' =>
                 sdo sub <- quiet (rlift (with_redirect orig "stdout" SPIPE));
                 sdo (r, its1) <- launch_function false sub;
                 sdo src <- quiet (rlift (pipe_of (Some r) "stdout"));
                 sdo (made1, fd) <- quiet (rlift (add_arg_redirect made src O_RDONLY));
                 sdo (m, its2, argv) <- launch_args l' made1;
                 sret (m, its1 ++ its2, DevFd fd :: argv)
             | AFunction :: l' =>
                 sdo sub <- quiet (rlift (with_redirect orig "stdin" SPIPE));
                 sdo (r, its1) <- launch_function true sub;
                 sdo src <- quiet (rlift (pipe_of (Some r) "stdin"));
                 sdo (made1, fd) <- quiet (rlift (add_arg_redirect made src O_WRONLY));
                 sdo (m, its2, argv) <- launch_args l' made1;
                 sret (m, its1 ++ its2, DevFd fd :: argv)
             end) args made;
        sdo t <- quiet get_tab;
        sdo _ <- began (IProc made' t argv);
        sdo _ <- quiet (lift (close_source_fds made'));
        sret (Some made', its ++ [IProc made' t argv])
    end.
End Launch.
(** base.py:143-150 with an environment's default redirects (environ.py:54-59),
    the output piped to the caller if [piped]: RunTopSpec.start, once more. *)
Definition launch_top (L : limits) (pf : ofd -> bool) (piped : bool) (p : pl) : SM rresult :=
  sdo env <- quiet (rlift default_redirects);
  sdo rs <- quiet (rlift (new_redirects (IRedirects env :: map IRedirect (if piped then [stdout_pipe] else []))));
  launch L pf p rs.
