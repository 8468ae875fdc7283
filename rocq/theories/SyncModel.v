(** Where python code uses a pipeline: at the prompt or in a script, or in code
    that the event loop is already running (/repo/pieshell/pipeline/base.py:155-182,
    /repo/pieshell/utils/asyncutils.py:4-12). *)
From Verif Require Import Py RedirModel Os PerformModel PerformSpec RunModel RunSpec RunTopSpec IterModel NetModel.

(** How a pipeline can be used: [+cmd] (base.py:161-165), [await cmd]
    (base.py:156-159,167-168), [bytes(cmd)] and [str(cmd)] (base.py:177-182),
    [for line in cmd] and [list(cmd)] (base.py:174-175), [async for line in cmd]
    (base.py:170-172), and [cmd.run()] (base.py:143-154). *)
Inductive use := UPlus | UAwait | UBytes | UStr | UFor | UAsyncFor | URun.

(** Where python code runs.  At the prompt or in a script
    (/repo/pieshell/shell.py:77-100); in the body of a generator or of a
    coroutine in a pipeline, which iterio.py:98-119,130-145 run from a task (as any
    [async def] of the user's); in the body of a function that is neither, which
    function.py:86-90 calls while the pipeline it is in is started by a use [w] of
    it in the code at [from]. *)
Inductive place := AtTop | GeneratorBody | CoroutineBody | PlainBody (w : use) (from : place).

(** Whether asyncio's loop runs there.  [+] and [await] start the processes from
    within a coroutine (base.py:156-162); the others from the code that uses the
    pipeline itself (base.py:172,182, before asyncutils.py:9). *)
Definition starts_in_loop (w : use) : bool := match w with UPlus | UAwait => true | _ => false end.
Fixpoint loop_runs (p : place) : bool :=
  match p with AtTop => false | GeneratorBody | CoroutineBody => true | PlainBody w from => loop_runs from || starts_in_loop w end.

(** What comes of a call: a result, or RuntimeError, This event loop is already
    running: asyncio base_events.py, run_until_complete (no /repo code), which does
    not get to run any of the coroutine. *)
Inductive called (A : Type) := Called (a : A) | Refused.
Arguments Called {A}. Arguments Refused {A}.
Definition run_until_complete {A} (p : place) (coroutine : st -> st * A) (s : st) : st * called A :=
  if loop_runs p then (s, Refused) else let '(s', a) := coroutine s in (s', Called a).
Definition directly {A} (f : st -> st * A) (s : st) : st * called A := let '(s', a) := f s in (s', Called a).

(** base.py:143-182: what the beginning of a use does to pieshell, up to the first
    wait: [run] with the output into a pipe or not, within run_until_complete or
    not. *)
Definition begin (L : limits) (pf : ofd -> bool) (w : use) (p : place) (cmd : pl) (s : st) : st * called (res rresult) :=
  match w with
  | UPlus => run_until_complete p (start L pf false cmd) s
  | UAwait | URun => directly (start L pf false cmd) s
  | UBytes | UStr | UFor | UAsyncFor => directly (start L pf true cmd) s
  end.

(** Whether the items are asked for with run_until_complete (asyncutils.py:9, used
    by base.py:175,182) or by awaiting __anext__. *)
Definition through_loop (w : use) : bool := match w with UBytes | UStr | UFor => true | _ => false end.

Section Use.
  Variable H : Type.
  (** One step of the network of a started pipeline (NetModel.v). *)
  Variable step : net H -> nlabel -> option (net H).
  Variable w : use.
  Variable p : place.
  (** [u_refused]: the caller has got the RuntimeError.  The iterator it had is a
      generator that has raised (asyncutils.py:6-12): it asks for nothing again. *)
  Record caller := mkU { u_net : net H; u_refused : bool }.
  Definition ustep (u : caller) (l : nlabel) : option caller :=
    match l with
    | NNext => if u_refused u then None
               else if through_loop w && loop_runs p then Some (mkU (u_net u) true)
               else match step (u_net u) NNext with Some n => Some (mkU n false) | None => None end
    | _ => match step (u_net u) l with Some n => Some (mkU n (u_refused u)) | None => None end
    end.
  Fixpoint usteps (u : caller) (ls : list nlabel) : option caller :=
    match ls with [] => Some u | l :: ls' => match ustep u l with Some u' => usteps u' ls' | None => None end end.
End Use.
Arguments mkU {H}. Arguments u_net {H}. Arguments u_refused {H}.

(** The two kinds of iteration: base.py:182 with running.py:77-78, and base.py:172
    with running.py:75-76. *)
Definition bytes_use (L : limits) (logfd maxfd cap : nat) (s s' : st) (its : list item) (x : nat) :=
  usteps byte_handler (nstep byte_handler byte_wants byte_event byte_next byte_resume bi_open
    (s_np s) cap (proc_fds logfd maxfd) (map (item_sees L logfd maxfd) its) (s_tab s') x (caller_pipe (s_tab s') x)).
Definition lines_use (L : limits) (logfd maxfd cap : nat) (s s' : st) (its : list item) (x : nat) :=
  usteps line_handler (nstep line_handler line_wants line_event line_next line_next li_open
    (s_np s) cap (proc_fds logfd maxfd) (map (item_sees L logfd maxfd) its) (s_tab s') x (caller_pipe (s_tab s') x)).
