(** What a pipeline computes whose commands have pipelines as arguments, without
    processes, pipes, descriptors or schedules. *)
From Verif Require Import Py RedirModel Os PerformModel PerformSpec RunModel RunSpec RunTopSpec RunEnds NetModel NestModel.

(** Commands whose arguments are words and pipelines, joined by pipes. *)
Inductive nested : pl -> Prop :=
| nested_cmd args : nested_args args -> nested (PCmd args)
| nested_pipe a b : nested a -> nested b -> nested (PPipe a b)
with nested_args : list arg -> Prop :=
| na_nil : nested_args []
| na_word w l : nested_args l -> nested_args (AWord w :: l)
| na_pipeline q l : nested q -> nested_args l -> nested_args (APipeline q :: l).

Definition chan_eqb (a b : chan) : bool :=
  match a, b with Stdin, Stdin => true | Argument i, Argument j => Nat.eqb i j | _, _ => false end.
Definition rest_of (ins : chan -> option (list N)) (c : chan) (r : list N) : chan -> option (list N) :=
  fun d => if chan_eqb d c then Some r else ins d.
(** Program [p] exits (with status 0 iff [ok]) after writing exactly [out], if it
    finds the bytes [l] and then end of file in the files with [ins c = Some l]; it
    does not read other files. *)
Inductive mdoes : mprog -> (chan -> option (list N)) -> list N -> bool -> Prop :=
| mdoes_exit ok ins : mdoes (MExits ok) ins [] ok
| mdoes_write b k ins out ok : mdoes (k true) ins out ok -> mdoes (MWrites b k) ins (b :: out) ok
| mdoes_read c k b r ins out ok : ins c = Some (b :: r) -> mdoes (k (Some b)) (rest_of ins c r) out ok -> mdoes (MReads c k) ins out ok
| mdoes_eof c k ins out ok : ins c = Some [] -> mdoes (k None) ins out ok -> mdoes (MReads c k) ins out ok.

(** The standard input of a pipeline: not to be read (it is another command's
    too), at its end for everybody, or these bytes. *)
Inductive input := Nothing | Ended | Bytes (bs : list N).
(** The arguments of a command inherit its standard input. *)
Definition for_args (i : input) : input := match i with Ended => Ended | _ => Nothing end.
Definition for_itself (i : input) : option (list N) := match i with Nothing => None | Ended => Some [] | Bytes bs => Some bs end.
(** What a command reads: its standard input, and in place of its arguments what
    these have written ([None]: a word). *)
Definition files (i : input) (argouts : list (option (list N))) (c : chan) : option (list N) :=
  match c with Stdin => for_itself i | Argument n => match nth_error argouts n with Some o => o | None => None end end.
(** Program [p] reads the files in [l] up to their end before it exits. *)
Inductive mreads : mprog -> (chan -> option (list N)) -> list chan -> Prop :=
| mreads_nil p ins : mreads p ins []
| mreads_write b k ins l : mreads (k true) ins l -> mreads (MWrites b k) ins l
| mreads_read c k b r ins l : ins c = Some (b :: r) -> mreads (k (Some b)) (rest_of ins c r) l -> mreads (MReads c k) ins l
| mreads_eof c k ins l l' : ins c = Some [] -> (forall d, In d l -> d = c \/ In d l') -> mreads (k None) ins l' -> mreads (MReads c k) ins l.
(** What may be asked of each program of a pipeline, given what it reads: nothing
    more, or that it reads all of it. *)
Definition asking := mprog -> input -> list (option (list N)) -> Prop.
Definition any : asking := fun _ _ _ => True.
Definition reads_everything : asking := fun p i argouts =>
  exists l, mreads p (files i argouts) l /\ (forall n bs, nth_error argouts n = Some (Some bs) -> In (Argument n) l) /\ (forall bs, i = Bytes bs -> In Stdin l).
(** The pipeline [p] run with programs [ps] (in the order of RunningPipeline.processes:
    those of its arguments before each command) writes [out]; [oks]: which of them
    succeed. *)
Inductive evals (R : asking) : pl -> input -> list mprog -> list N -> list bool -> Prop :=
| evals_cmd args i ps argouts oks p out ok :
    evals_args R args (for_args i) ps argouts oks -> mdoes p (files i argouts) out ok -> R p i argouts ->
    evals R (PCmd args) i (ps ++ [p]) out (oks ++ [ok])
| evals_pipe a b i ps qs mid out oks1 oks2 :
    evals R a i ps mid oks1 -> evals R b (Bytes mid) qs out oks2 -> evals R (PPipe a b) i (ps ++ qs) out (oks1 ++ oks2)
with evals_args (R : asking) : list arg -> input -> list mprog -> list (option (list N)) -> list bool -> Prop :=
| ea_nil i : evals_args R [] i [] [] []
| ea_word w l i ps outs oks : evals_args R l i ps outs oks -> evals_args R (AWord w :: l) i ps (None :: outs) oks
| ea_pipeline q l i ps qs out outs oks1 oks2 :
    evals R q i ps out oks1 -> evals_args R l i qs outs oks2 -> evals_args R (APipeline q :: l) i (ps ++ qs) (Some out :: outs) (oks1 ++ oks2).

(** A program that, told that nobody reads its output any more, exits with a
    status other than 0. *)
CoInductive mcareful : mprog -> Prop :=
| mcareful_exit ok : mcareful (MExits ok)
| mcareful_write b k : k false = MExits false -> mcareful (k true) -> mcareful (MWrites b k)
| mcareful_read c k : (forall o, mcareful (k o)) -> mcareful (MReads c k).

(** [p] was started with its output into a pipe (as [launched] in NetSpec.v). *)
Definition started (L : limits) (pf : ofd -> bool) (logfd maxfd : nat) (p : pl) (s s' : st) (its : list item) (x : nat) : Prop :=
  refers (s_tab s) 0 <> None /\ refers (s_tab s) 1 <> None /\ tget (s_tab s) 2 <> None /\
  (forall n o, refers (s_tab s) n = Some o -> is_end o -> pipe_no o < s_np s) /\
  (exists ret, start L pf true p s = (s', Ok (ret, its)) /\ caller_fds ret = [x]) /\
  2 < logfd /\ 2 < maxfd /\
  (forall rs t argv, In (IProc rs t argv) its -> room L logfd rs t /\ find_free_fd rs < maxfd).
(** The shell's own standard input has these bytes. *)
Definition shell_input (i : input) (inp : list N) : Prop := i = Bytes inp \/ i = Ended /\ inp = [].
