(** Pipelines started in environments whose standard output is set to a log file. *)
From Verif Require Import Py RedirModel Os PerformModel PerformSpec RunModel RunSpec RunTopSpec IterModel FileModel FileSpec NetModel NetSpec JobSpec
  EnvRedirModel EnvRedirSpec LogModel LogSpec BgModel.

(** (c | cs...) run in environment [v_e], after the statements [v_h] about environments;
    its programs compute [v_out]. *)
Record in_environment := mkIn { v_h : list envop; v_e : nat; v_c : list string; v_cs : list (list string); v_out : list N }.
Definition as_run (L : limits) (pf : ofd -> bool) (logfd maxfd : nat) (a : task) (v : in_environment) : Prop :=
  sensible 0 (v_h v) /\ v_e v < List.length (filter makes (v_h v)) /\ made_with (v_h v) (user (v_h v) (v_e v)) = standard /\
  Forall (fun r => (exists p, to_path L r p) /\ appends r) (settings (v_h v) (v_e v)) /\
  usable (k_s a) /\
  (exists ret, run_in L pf (after (v_h v)) false (EPart (v_e v) (chain (v_c v) (v_cs v))) (k_s a) = (k_s' a, Ok (ret, k_its a))) /\
  (forall rs t argv, In (IProc rs t argv) (k_its a) -> room L logfd rs t /\ find_free_fd rs < maxfd) /\
  List.length (k_progs a) = S (List.length (v_cs v)) /\ all_give (k_progs a) (k_typed a) true (v_out v) true.
