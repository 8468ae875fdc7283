(** Several running pipelines, the iterations over them, and the event loop's table of
    readers.  Descriptors are numbers that the kernel gives out again after they have
    been closed.
    Simplifications: when a handler reads is left to the scheduler (its buffering is in
    IterModel.v); the other end of each pipe is closed in the shell (RunModel.v); data
    is written to a pipe as the scheduler likes, without a bound (NetModel.v has
    processes and capacities).  Files of other code are always readable. *)
From Verif Require Import Py.

(** No /repo code: what a descriptor of the shell refers to: the output of the r-th
    pipeline that was run, or a file of other code. *)
Inductive file := OutputOf (r : nat) | Elsewhere.
(** iterio.py:20-24, 147-152: a LineInputHandler or InputHandler, made by iterating over
    running pipeline [hd_run] (running.py:75-78); [hd_got] is what os.read has returned
    to it. *)
Record handler := mkHandler { hd_run : nat; hd_fd : nat; hd_got : list N; hd_eof : bool }.
(** [g_tab]: the kernel's descriptor table.  [g_sel]: asyncio's selector: which handler's
    callback is called when a descriptor is readable (iterio.py:44-45).  [g_fds]: the
    number each running pipeline has as its stdout redirect's pipe (redir.py:120-127).
    [g_raised]: iterations that raised. *)
Record shell := mkShell {
  g_tab : nat -> option file; g_sel : nat -> option nat; g_hs : list handler; g_fds : list nat;
  g_pipe : nat -> list N; g_sent : nat -> list N; g_wopen : nat -> bool; g_raised : list nat }.

Definition put {A} (f : nat -> A) (k : nat) (v : A) : nat -> A := fun j => if Nat.eqb j k then v else f j.
Fixpoint replace {A} (l : list A) (i : nat) (v : A) : list A :=
  match l, i with [] , _ => [] | _ :: r, 0 => v :: r | y :: r, S j => y :: replace r j v end.

(** [ARun fd]: Pipeline.run with stdout to PIPE; the kernel chooses a free number.
    [AIterate r]: RunningPipeline.__aiter__ or iterbytes (running.py:75-78).
    [AWrite], [AClose]: the pipeline's processes.  [AEvent fd d]: the event loop calls the
    reader of [fd], whose os.read returns [d].  [AOpen], [AShut]: other code. *)
Inductive act := ARun (fd : nat) | AIterate (r : nat) | AWrite (r : nat) (d : list N) | AClose (r : nat) | AEvent (fd : nat) (d : list N) | AOpen (fd : nat) | AShut (fd : nat).

(** read(2): what it may return from a file *)
Definition may_read (s : shell) (f : file) (d : list N) : bool :=
  match f with
  | OutputOf r => match d with
                  | [] => match g_pipe s r with [] => negb (g_wopen s r) | _ => false end
                  | _ => (List.length d <=? 1024) && (List.length d <=? List.length (g_pipe s r)) && forallb (fun p => N.eqb (fst p) (snd p)) (combine d (g_pipe s r))
                  end
  | Elsewhere => List.length d <=? 1024
  end.
(** what is left of it *)
Definition after_read (s : shell) (f : file) (d : list N) : nat -> list N :=
  match f with OutputOf r => put (g_pipe s) r (skipn (List.length d) (g_pipe s r)) | Elsewhere => g_pipe s end.

Definition act_step (s : shell) (a : act) : option shell :=
  match a with
  | ARun fd => match g_tab s fd with
               | None => let r := List.length (g_fds s) in
                         Some (mkShell (put (g_tab s) fd (Some (OutputOf r))) (g_sel s) (g_hs s) (g_fds s ++ [fd]) (g_pipe s) (g_sent s) (g_wopen s) (g_raised s))
               | Some _ => None
               end
  | AIterate r =>
      match nth_error (g_fds s) r with
      | None => None
      | Some fd =>
          match g_tab s fd with
          (* iterio.py:39-45: loop.add_reader raises OSError for a closed descriptor *)
          | None => Some (mkShell (g_tab s) (g_sel s) (g_hs s) (g_fds s) (g_pipe s) (g_sent s) (g_wopen s) (g_raised s ++ [r]))
          (* iterio.py:44-45: add_reader replaces the callback, if there is one *)
          | Some _ => Some (mkShell (g_tab s) (put (g_sel s) fd (Some (List.length (g_hs s)))) (g_hs s ++ [mkHandler r fd [] false]) (g_fds s) (g_pipe s) (g_sent s) (g_wopen s) (g_raised s))
          end
      end
  | AWrite r d => if (r <? List.length (g_fds s)) && g_wopen s r
                  then Some (mkShell (g_tab s) (g_sel s) (g_hs s) (g_fds s) (put (g_pipe s) r (g_pipe s r ++ d)) (put (g_sent s) r (g_sent s r ++ d)) (g_wopen s) (g_raised s))
                  else None
  | AClose r => if r <? List.length (g_fds s)
                then Some (mkShell (g_tab s) (g_sel s) (g_hs s) (g_fds s) (g_pipe s) (g_sent s) (put (g_wopen s) r false) (g_raised s))
                else None
  | AEvent fd d =>
      match g_sel s fd, g_tab s fd with
      | Some h, Some f =>
          match nth_error (g_hs s) h with
          | Some hd =>
              if may_read s f d then
                match d with
                (* iterio.py:29-38,49-55,156-159,194-198: end of file, destroy *)
                | [] => Some (mkShell (put (g_tab s) fd None) (put (g_sel s) fd None) (replace (g_hs s) h (mkHandler (hd_run hd) (hd_fd hd) (hd_got hd) true))
                                (g_fds s) (g_pipe s) (g_sent s) (g_wopen s) (g_raised s))
                (* iterio.py:156,194 os.read(self.fd, 1024) *)
                | _ => Some (mkShell (g_tab s) (g_sel s) (replace (g_hs s) h (mkHandler (hd_run hd) (hd_fd hd) (hd_got hd ++ d) false))
                                (g_fds s) (after_read s f d) (g_sent s) (g_wopen s) (g_raised s))
                end
              else None
          | None => None
          end
      | _, _ => None
      end
  | AOpen fd => match g_tab s fd with
                | None => Some (mkShell (put (g_tab s) fd (Some Elsewhere)) (g_sel s) (g_hs s) (g_fds s) (g_pipe s) (g_sent s) (g_wopen s) (g_raised s))
                | Some _ => None
                end
  | AShut fd => match g_tab s fd, g_sel s fd with
                | Some Elsewhere, None => Some (mkShell (put (g_tab s) fd None) (g_sel s) (g_hs s) (g_fds s) (g_pipe s) (g_sent s) (g_wopen s) (g_raised s))
                | _, _ => None
                end
  end.
Fixpoint act_steps (s : shell) (l : list act) : option shell :=
  match l with [] => Some s | a :: l' => match act_step s a with Some s' => act_steps s' l' | None => None end end.
(** A shell in which nothing has been run; [t]: the descriptors it has. *)
Definition fresh (t : nat -> bool) : shell :=
  mkShell (fun fd => if t fd then Some Elsewhere else None) (fun _ => None) [] [] (fun _ => []) (fun _ => []) (fun _ => true) [].
