(** The signal settings programs are started with. *)
From Verif Require Import Py WorldModel MaskModel MaskSpec MaskProofs.

(** C108, for every number of pieshells in between: every signal but SIGPIPE, SIGXFSZ,
    SIGCHLD and SIGTSTP is as without them. *)
Theorem C108_others_partial : forall ms s s' n, plain_start s s' -> ~ python_changes n -> ~ manager_takes n -> agree (program_sigs ms s) s' n.
Proof. exact others_agree. Qed.
Print Assumptions C108_others_partial.
(** So are SIGCHLD and SIGTSTP with the asyncio manager, unless they were ignored. *)
Theorem C108_asyncio_partial : forall ms s s' n, plain_start s s' -> manager_takes n -> (forall m, In m ms -> m = Asyncio) -> sg_disp s n <> Ignored -> agree (program_sigs ms s) s' n.
Proof. exact taken_agree. Qed.
Print Assumptions C108_asyncio_partial.
(** False: no program started by pieshell is ever ended by SIGPIPE (or SIGXFSZ). *)
Theorem C108_pipe_refuted : forall ms s n, ms <> [] -> python_changes n -> sg_disp (program_sigs ms s) n = Ignored /\ receives (program_sigs ms s) n <> Acts.
Proof. exact pipe_ignored. Qed.
Print Assumptions C108_pipe_refuted.
(** False: with the signalfd manager SIGCHLD and SIGTSTP are blocked in every program. *)
Theorem C108_blocked_refuted : forall ms s n, In Signalfd ms -> manager_takes n -> sg_blocked (program_sigs ms s) n = true /\ receives (program_sigs ms s) n = Waits.
Proof. exact taken_blocked. Qed.
Print Assumptions C108_blocked_refuted.
(** False: with the asyncio manager they are not ignored even if pieshell was started so. *)
Theorem C108_unignored_refuted : forall ms s n, In Asyncio ms -> manager_takes n -> sg_disp (program_sigs ms s) n = Default.
Proof. exact unignored. Qed.
Print Assumptions C108_unignored_refuted.

Definition from_login : sigs := mkSigs (fun _ => false) (fun _ => Default).
Definition ignoring : sigs := mkSigs (fun n => N.eqb n 10) (fun n => if N.eqb n SIGTSTP then Ignored else if N.eqb n SIGINT then Ignored else Handled).
Example C108_nonvacuous :
  plain_start from_login from_login /\ plain_start ignoring (sig_exec ignoring) /\
  map (receives (program_sigs [Signalfd] from_login)) [SIGINT; SIGPIPE; SIGTSTP; SIGCHLD; 15%N] = [Acts; Nothing; Waits; Waits; Acts] /\
  map (receives (program_sigs [Asyncio] from_login)) [SIGINT; SIGPIPE; SIGTSTP; SIGCHLD; 15%N] = [Acts; Nothing; Acts; Acts; Acts] /\
  map (receives (program_sigs [Asyncio; Signalfd] ignoring)) [SIGINT; SIGTSTP; 10%N] = [Nothing; Waits; Waits] /\
  map (receives (sig_exec ignoring)) [SIGINT; SIGTSTP; SIGPIPE] = [Nothing; Nothing; Acts] /\
  receives (program_sigs [Asyncio] ignoring) SIGTSTP = Acts.
Proof.
  split; [constructor; cbn; auto; intros; congruence|]. split; [|vm_compute; repeat split].
  constructor; [reflexivity| |]; cbn; intros n H; destruct (N.eqb n SIGTSTP), (N.eqb n SIGINT); congruence.
Qed.
