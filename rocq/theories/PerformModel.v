(** Model of the child side of redirection: /repo/pieshell/redir.py:89-119 and
    197-224. *)
From Verif Require Import Py RedirModel Os.

Section Perform.
  Variable L : limits.
  Variable logfd : nat.       (* log.logfd, log.py:32 *)
  Variable maxfd : nat.       (* MAXFD, redir.py:14-17 *)

  (** redir.py:89-98 Redirect.open(borrow).  Logging (92,94,96) omitted.  A
      source that is neither an int nor a path (PIPE/TMP/STRING class) makes
      os.open raise TypeError. *)
  Definition redirect_open (r : redirect) (borrow : bool) : TM nat :=
    match r_source r with
    | SInt n => if borrow then tret n else os_dup L n
    | SPath p => os_open L p (r_flag r)
    | _ => traise TypeError
    end.

  (** redir.py:104-110 Redirect.perform *)
  Definition redirect_perform (r : redirect) : TM unit :=
    do src <- redirect_open r true;
    (if Nat.eqb src (r_fd r) then traise AssertionError else tret tt) ;;
    os_dup2 L src (r_fd r) ;;
    os_close src.

  (** redir.py:111-119 Redirect.move *)
  Definition set_source (r : redirect) (s : source) : redirect :=
    mkRedirect (r_fd r) s (r_flag r) (r_mode r) (r_pipe r) (r_borrowed r).
  Definition redirect_move (r : redirect) (fd : nat) : TM redirect :=
    match r_source r with
    | SInt n => os_dup2 L n fd ;; os_close n ;; tret (set_source r (SInt fd))
    | _ => tret r
    end.

  (** redir.py:197-204 Redirects.move_existing_fds: new_fd is incremented for
      every redirect, moved or not. *)
  Fixpoint move_loop (l : list redirect) (new_fd : nat) : TM (list redirect) :=
    match l with
    | [] => tret []
    | r :: l' =>
        do r' <- redirect_move r new_fd;
        do rest <- move_loop l' (new_fd + 1);
        tret (r' :: rest)
    end.
  Definition move_existing_fds (rs : redirects) : TM (list redirect) :=
    move_loop (dvals rs) (find_free_fd rs).

  Fixpoint perform_loop (l : list redirect) : TM unit :=
    match l with
    | [] => tret tt
    | r :: l' => redirect_perform r ;; perform_loop l'
    end.

  (** redir.py:214-224 Redirects.close_other_fds: errors of os.close are
      ignored. *)
  Fixpoint close_loop (rs : redirects) (i n : nat) (t : tab) : tab :=
    match n with
    | 0 => t
    | S n' =>
        let t' := if dmem rs i then t
                  else if Nat.eqb i logfd then t
                  else fst (os_close i t) in
        close_loop rs (S i) n' t'
    end.
  Definition close_other_fds (rs : redirects) : TM unit :=
    fun t => (close_loop rs 0 maxfd t, Ok tt).

  (** redir.py:205-213 Redirects.perform.  The [except Exception] clause only
      logs, so the caller sees a normal return; we also return whether an
      exception was swallowed. *)
  Definition perform (rs : redirects) (t : tab) : tab * option exn :=
    match (do l <- move_existing_fds rs; perform_loop l ;; close_other_fds rs) t with
    | (t', Ok _) => (t', None)
    | (t', Err e) => (t', Some e)
    end.
End Perform.
