(** What a pipeline of programs computes, without processes, pipes or schedules. *)
From Verif Require Import Py RedirModel Os PerformModel PerformSpec RunModel RunSpec RunTopSpec RunEnds NetModel.

(** Program [p], given the bytes [inp] and then end of file, exits (with status 0
    iff [ok]) after writing exactly [out], and need not have read everything. *)
Inductive does : prog -> list N -> list N -> bool -> Prop :=
| does_exit ok inp : does (Exits ok) inp [] ok
| does_write b k inp out ok : does (k true) inp out ok -> does (Writes b k) inp (b :: out) ok
| does_read k b inp out ok : does (k (Some b)) inp out ok -> does (Reads k) (b :: inp) out ok
| does_eof k out ok : does (k None) [] out ok -> does (Reads k) [] out ok.
(** The programs one after the other, each reading what the one before wrote;
    [oks]: which of them succeed. *)
Inductive all_do : list prog -> list N -> list N -> list bool -> Prop :=
| all_do_nil inp : all_do [] inp inp []
| all_do_cons p ps inp mid out ok oks : does p inp mid ok -> all_do ps mid out oks -> all_do (p :: ps) inp out (ok :: oks).

(** A program that may go on for ever.  [gives p inp d out e]: given the bytes
    [inp], and then end of file if [d], it comes to write [out] and then, if [e] is
    [Some ok], to exit; it may do more if [e] is [None]. *)
Inductive gives : prog -> list N -> bool -> list N -> option bool -> Prop :=
| gives_some p inp d : gives p inp d [] None
| gives_exit ok inp d : gives (Exits ok) inp d [] (Some ok)
| gives_write b k inp d out e : gives (k true) inp d out e -> gives (Writes b k) inp d (b :: out) e
| gives_read k b inp d out e : gives (k (Some b)) inp d out e -> gives (Reads k) (b :: inp) d out e
| gives_eof k out e : gives (k None) [] true out e -> gives (Reads k) [] true out e.
(** It writes or exits again and again, whatever it reads. *)
Inductive soon : prog -> Prop :=
| soon_exit ok : soon (Exits ok)
| soon_write b k : soon (Writes b k)
| soon_read k : (forall o, soon (k o)) -> soon (Reads k).
CoInductive lively : prog -> Prop :=
| lively_exit ok : lively (Exits ok)
| lively_write b k : lively (k true) -> lively (Writes b k)
| lively_read k : soon (Reads k) -> (forall o, lively (k o)) -> lively (Reads k).
(** One after the other, as far as the next one needs it. *)
Inductive all_give : list prog -> list N -> bool -> list N -> bool -> Prop :=
| all_give_nil inp d : all_give [] inp d inp d
| all_give_ends p ps inp d mid ok out e : gives p inp d mid (Some ok) -> all_give ps mid true out e -> all_give (p :: ps) inp d out e
| all_give_goes_on p ps inp d mid out e : gives p inp d mid None -> lively p -> all_give ps mid false out e -> all_give (p :: ps) inp d out e.

(** A program that, told that nobody reads its output any more, exits with a
    status other than 0. *)
CoInductive careful : prog -> Prop :=
| careful_exit ok : careful (Exits ok)
| careful_write b k : k false = Exits false -> careful (k true) -> careful (Writes b k)
| careful_read k : (forall o, careful (k o)) -> careful (Reads k).
(** A program that never exits by itself. *)
CoInductive endless : prog -> Prop :=
| endless_write b k : endless (k true) -> endless (Writes b k)
| endless_read k : (forall o, endless (k o)) -> endless (Reads k).
(** A program that never exits, not even when a write has failed. *)
CoInductive never_exits : prog -> Prop :=
| never_write b k : (forall ok, never_exits (k ok)) -> never_exits (Writes b k)
| never_read k : (forall o, never_exits (k o)) -> never_exits (Reads k).
(** A program that reads the bytes [inp] and the end of file before it exits. *)
Inductive reads_all : prog -> list N -> Prop :=
| reads_all_eof k : reads_all (Reads k) []
| reads_all_read k b inp : reads_all (k (Some b)) inp -> reads_all (Reads k) (b :: inp)
| reads_all_write b k inp : reads_all (k true) inp -> reads_all (Writes b k) inp.
(** All of these programs do, each reading what the one before writes. *)
Inductive all_read : list prog -> list N -> Prop :=
| all_read_nil inp : all_read [] inp
| all_read_cons p ps inp mid ok : reads_all p inp -> does p inp mid ok -> all_read ps mid -> all_read (p :: ps) inp.
(** All but the first do (which, as echo does, may not read its input at all). *)
Definition others_read (ps : list prog) (inp : list N) : Prop :=
  match ps with [] => True | p :: rest => exists mid ok, does p inp mid ok /\ all_read rest mid end.

(** A step of one of the processes. *)
Definition proc_label (l : nlabel) : bool := match l with NProc _ => true | _ => false end.
(** [c | cs...] was started with its output into a pipe: by a shell that has
    standard files and whose pipes are all older; [its] was started, and [x] is the
    descriptor the caller reads from.  Each child had room for its descriptors. *)
Definition launched (L : limits) (pf : ofd -> bool) (logfd maxfd : nat) (c : list string) (cs : list (list string))
    (s s' : st) (its : list item) (x : nat) : Prop :=
  refers (s_tab s) 0 <> None /\ refers (s_tab s) 1 <> None /\ tget (s_tab s) 2 <> None /\
  (forall n o, refers (s_tab s) n = Some o -> is_end o -> pipe_no o < s_np s) /\
  (exists ret, start L pf true (chain c cs) s = (s', Ok (ret, its)) /\ caller_fds ret = [x]) /\
  2 < logfd /\ 2 < maxfd /\
  (forall rs t argv, In (IProc rs t argv) its -> room L logfd rs t /\ find_free_fd rs < maxfd).
