(** Running a pipeline while it is still being started: the programs run as soon
    as they have been started (command.py:213-245 forks one after the other,
    pipe.py:37-53), while pieshell itself, and the children between fork and exec
    (command.py:224-238, redir.py:194-226), still hold ends of the pipes.  This takes away
    a simplification of NetModel.v, whose programs make their first step once
    everything has been started.
    Who holds what for how long is left open: [held] is any list of ends, and each
    of them is given up at any time the scheduler likes.  A program that has not
    been started yet is one that the scheduler does not choose; until then
    pieshell has the ends the program is to have (pipe.py:42-49), which is the same
    as the program having them. *)
From Verif Require Import Py RedirModel Os PerformModel PerformSpec RunModel RunSpec RunTopSpec IterModel NetModel.

(** One end, held by one holder: in the network it is a process that has nothing but
    that end, and that ends when it gives it up (redir.py:100-104 close_source_fd,
    or redir.py:212-224 close_other_fds in a child). *)
Definition holds (e : ofd) : nat -> option ofd := fun fd => if Nat.eqb fd 0 then Some e else None.
Definition holder (e : ofd) : prog := Exits true.
(** The network at the beginning: base.py:143-154. *)
Definition starting {H} (h : H) (progs : list prog) (held : list ofd) (inp : list N) : net H :=
  net_start H h (progs ++ map holder held) inp.
(** base.py:170-182, as bytes_run and lines_run of NetModel.v. *)
Definition starting_bytes (L : limits) (logfd maxfd cap : nat) (s s' : st) (its : list item) (x : nat) (held : list ofd) :=
  nsteps byte_handler byte_wants byte_event byte_next byte_resume bi_open
    (s_np s) cap (proc_fds logfd maxfd) (map (item_sees L logfd maxfd) its ++ map holds held) (s_tab s') x (caller_pipe (s_tab s') x).
Definition starting_lines (L : limits) (logfd maxfd cap : nat) (s s' : st) (its : list item) (x : nat) (held : list ofd) :=
  nsteps line_handler line_wants line_event line_next line_next li_open
    (s_np s) cap (proc_fds logfd maxfd) (map (item_sees L logfd maxfd) its ++ map holds held) (s_tab s') x (caller_pipe (s_tab s') x).
