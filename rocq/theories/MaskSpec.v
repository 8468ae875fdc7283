(** Vocabulary for the signal settings of programs. *)
From Verif Require Import Py WorldModel MaskModel.

(** What a program gets from what starts it, without pieshell in between. *)
Record plain_start (s s' : sigs) : Prop := {
  ps_mask : forall n, sg_blocked s' n = sg_blocked s n;
  ps_default : forall n, sg_disp s n <> Ignored -> sg_disp s' n = Default;
  ps_ignored : forall n, sg_disp s n = Ignored -> sg_disp s' n = Ignored }.
(** The settings agree on a signal. *)
Definition agree (s s' : sigs) (n : N) : Prop := sg_blocked s n = sg_blocked s' n /\ sg_disp s n = sg_disp s' n.
Definition python_changes (n : N) : Prop := n = SIGPIPE \/ n = SIGXFSZ.
Definition manager_takes (n : N) : Prop := n = SIGCHLD \/ n = SIGTSTP.
