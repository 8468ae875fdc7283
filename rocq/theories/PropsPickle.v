(** C75: a pipeline sent to another pieshell (remote, --pcmd) is the same pipeline there. *)
From Verif Require Import Py PathModel EnvModel PickleModel PickleSpec PickleProofs.

(** What arrives is always the same pipeline (python before 3.11) ... *)
Theorem C75_same_pipeline : forall v v', send false v = Ok v' -> arrived v v'.
Proof. intros v v' H. apply send_eq in H as (s & D & L). eapply send_arrived; eassumption. Qed.
Print Assumptions C75_same_pipeline.
(** ... and something arrives exactly if no part of it is a function without a
    global name, an R(...), a redirect to a temporary file, or a run. *)
Theorem C75_when_partial : forall v, last_is_run v -> ((exists v', send false v = Ok v') <-> forall p, part v p -> ~ stuck p).
Proof.
  intros v LR. split.
  - intros (v' & H). apply send_eq in H as (s & D & L). eapply send_stuck; eassumption.
  - intros NS. destruct (send_ok v LR NS) as (s & v' & D & L). exists v'. apply send_eq. eauto.
Qed.
Print Assumptions C75_when_partial.
(** A command with a word R(...) can never be sent: the other side fails. *)
Theorem C75_raw_refuted : forall words env t v', In (VR t) words -> send false (command words env) <> Ok v'.
Proof.
  intros words env t v' I H. apply send_eq in H as (s & D & L).
  apply (send_stuck _ _ _ D L (VR t)); [|unfold stuck; eauto].
  eapply pt_pipeline; [right; right; left; reflexivity| |eapply pt_list; [exact I|constructor]].
  apply stored_spec. reflexivity.
Qed.
Print Assumptions C75_raw_refuted.
(** What was run before matters: once the last pipeline run in the environment
    has a redirect to a temporary file (every command has one: the environment
    sends standard error to STRING, environ.py:58), nothing can be sent. *)
Theorem C75_history_refuted : forall words fs p t v', part p (VSpecial t) -> send false (command words (after_run fs p)) <> Ok v'.
Proof.
  intros words fs p t v' P H. apply send_eq in H as (s & D & L).
  apply (send_stuck _ _ _ D L (VSpecial t)); [|unfold stuck; eauto].
  eapply pt_pipeline; [left; reflexivity|apply stored_spec; reflexivity|]. eapply pt_last; [|exact P].
  apply in_or_app. right. now left.
Qed.
Print Assumptions C75_history_refuted.
(** With python 3.11 or later no pipeline at all can be sent. *)
Theorem C75_python311_refuted : forall cls fields, send true (VPipeline cls fields) = Err TypeError.
Proof. reflexivity. Qed.
Print Assumptions C75_python311_refuted.

(** A fresh environment (environ.py:49-61) and what Command._run leaves behind
    (command.py:237-243). *)
Definition atom (s : string) : pv := VAtom (txt s).
Definition fresh_env : list (text * pv) :=
  [(txt "_exports_value", atom "None"); (txt "_interactive", atom "False"); (txt "_bashfunctions", VList []); (txt "_scope", atom "the scope");
   (txt "_cwd", atom "/"); (txt "_redirects", VList [atom "0 <- 0"; atom "1 -> 1"; VList [atom "2"; atom "STRING"] ]); (txt "running_pipelines", VList [])].
Definition ran (words : list pv) : pv :=
  VPipeline (txt "Command") [(txt "_env", atom "memo"); (txt "_started", atom "True"); (txt "_arg", VList words); (txt "_running_process", VRunning (atom "self"));
    (txt "_pid", atom "7"); (txt "_redirects", VList [atom "0 <- 0"; VList [atom "2"; atom "9"; VSpecial (txt "STRING(path=/tmp/x)")] ])].
Example C75_nonvacuous :
  (exists v', send false (command [atom "ls"; atom "-l"] (VEnv fresh_env)) = Ok v') /\
  last_is_run (command [atom "ls"] (VEnv fresh_env)) /\
  send false (command [atom "ls"; VR (txt "*")] (VEnv fresh_env)) = Err RecursionError /\
  part (ran [atom "ls"]) (VSpecial (txt "STRING(path=/tmp/x)")) /\
  send false (command [atom "ls"] (after_run fresh_env (ran [atom "ls"]))) = Err RecursionError.
Proof.
  split; [eexists; vm_compute; reflexivity|]. split.
  - intros fs x P I. unfold command in P. inversion P as [|?|? ? ? v p J _ Q|?|?]; subst. destruct J as [J|[J|[J|[J|[]]]]]; injection J as <- <-.
    + inversion Q as [| | |? q ? J _|? k v ? J _ _ Q']; subst.
      * exfalso. repeat (destruct I as [I|I]; [revert I; vm_compute; congruence|]). destruct I.
      * exfalso. repeat (destruct J as [J|J]; [revert J; vm_compute; congruence|]). destruct J.
      * exfalso. clear - J Q'. unfold fresh_env, atom in J. cbn [In] in J.
        repeat (destruct J as [J|J]; [injection J as <- <-; try (inversion Q'; fail); try (inversion Q' as [|? ? ? K K'|?|?|?]; subst; cbn [In] in K; repeat (destruct K as [<-|K]; [try (inversion K'; fail)|]); try destruct K)|]).
        all: try destruct J. all: inversion K' as [|? ? ? Z Z'|?|?|?]; subst; cbn [In] in Z; repeat (destruct Z as [<-|Z]; [inversion Z'|]); destruct Z.
    + inversion Q.
    + inversion Q as [|? ? ? K K'|?|?|?]; subst. destruct K as [<-|[]]. inversion K'.
    + inversion Q.
  - split; [vm_compute; reflexivity|]. split; [|vm_compute; reflexivity].
    eapply pt_pipeline; [do 5 right; left; reflexivity|apply stored_spec; reflexivity|].
    eapply pt_list; [right; left; reflexivity|]. eapply pt_list; [right; right; left; reflexivity|]. constructor.
Qed.
