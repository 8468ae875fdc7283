(** What is to be expected of pipelines that run at the same time and log to files. *)
From Verif Require Import Py RedirModel Os PerformModel PerformSpec RunModel RunSpec RunTopSpec RunEnds IterModel IterSpec FileModel FileSpec FileProofs NetModel NetSpec NetProofs JobModel JobSpec BgModel.

(** (c | cs...) with its ends redirected, and what its programs compute: [g_out] of the
    input [g_inp]. *)
Record plan := mkPlan { g_c : list string; g_cs : list (list string); g_inr : option redirect; g_outr : option redirect; g_inp : list N; g_out : list N }.
Definition logs_to (g : plan) (p : path) : Prop := exists r, g_outr g = Some r /\ r_source r = SPath p.
Definition takes_from (g : plan) (p : path) : Prop := exists r, g_inr g = Some r /\ r_source r = SPath p.
(** The task is a started pipeline as planned, whose output, if it is redirected, is
    appended to a file. *)
Definition as_planned (L : limits) (pf : ofd -> bool) (logfd maxfd : nat) (f0 : fs) (a : task) (g : plan) : Prop :=
  launched_job L pf logfd maxfd (g_c g) (g_cs g) (g_inr g) (g_outr g) (k_s a) (k_s' a) (k_its a) /\
  List.length (k_progs a) = S (List.length (g_cs g)) /\
  input_is f0 (g_inr g) (k_typed a) (g_inp g) /\
  all_give (k_progs a) (g_inp g) true (g_out g) true /\
  (forall r, g_outr g = Some r -> appending (r_flag r)).
(** The tasks started by a schedule. *)
Fixpoint tasks_of (ls : list blabel) : list task :=
  match ls with [] => [] | BStart a :: ls' => a :: tasks_of ls' | BStep _ _ :: ls' => tasks_of ls' end.
(** They are all as planned, and nobody reads a file that one of them writes. *)
Definition all_planned (L : limits) (pf : ofd -> bool) (logfd maxfd : nat) (f0 : fs) (ls : list blabel) (gs : list plan) : Prop :=
  Forall2 (as_planned L pf logfd maxfd f0) (tasks_of ls) gs /\
  (forall g g' p, In g gs -> In g' gs -> takes_from g p -> logs_to g' p -> False).
(** What job [k] contributed to a log whose entries are marked by the job. *)
Definition by_job (k : nat) (m : list (nat * N)) : list N := map snd (filter (fun e => Nat.eqb (fst e) k) m).
(** wait() on every pipeline has come to its end. *)
Definition all_waited (y : sys) : Prop := forall k a t, nth_error (y_jobs y) k = Some (a, t) -> j_wait t <> None.
(** A step of a process of one of the pipelines. *)
Definition process_step (l : blabel) : bool := match l with BStep _ l' => by_process l' | BStart _ => false end.
