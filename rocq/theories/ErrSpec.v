(** What the text of a PipelineError should contain. *)
From Verif Require Import Py PathModel EnvModel RedirModel IterModel Utf8Model FinishModel FinishSpec ErrModel.

(** [t] can be read in [m]. *)
Definition shows (m t : text) : Prop := exists a b, m = a ++ t ++ b.
(** A process that has ended with an exit code other than 0. *)
Definition failed_process (e : eitem) (cmd : text) (it : item) : Prop := exists s, e = EProc cmd it false s /\ s <> 0%N.
(** A function that has ended with an exception with the traceback [t]. *)
Definition failed_function (e : eitem) (name t : text) : Prop := exists fd u en, e = EFun name fd u en true (Some t).
(** An fg statement whose job has failed. *)
Definition failed_fg (e : eitem) : Prop := e = EFg false true.
(** What is captured of standard output and standard error, as it is to be shown. *)
Definition section (fd : nat) (t : text) : text :=
  match fd with
  | 0 => txt "stdin"
  | 1 => txt "stdout"
  | 2 => txt "stderr"
  | _ => str_nat fd
  end ++ txt " content:" ++ [10%N] ++ t ++ [10%N].
(** The part about one failed item. *)
Definition part_of (e : eitem) (t : text) : Prop :=
  (forall cmd it, failed_process e cmd it -> t = cmd ++ [10%N] ++ List.concat (map (fun c => section (fst c) (snd c)) (it_content it))) /\
  (forall name tb, failed_function e name tb -> exists a, t = name ++ a ++ [10%N] ++ tb).
Definition failed (e : eitem) : Prop := (exists c i, failed_process e c i) \/ (exists n t, failed_function e n t) \/ failed_fg e.
(** The failed ones among the items, in order. *)
Inductive failed_among : list eitem -> list eitem -> Prop :=
| FA_nil : failed_among [] []
| FA_yes e l l' : failed e -> failed_among l l' -> failed_among (e :: l) (e :: l')
| FA_no e l l' : ~ failed e -> failed_among l l' -> failed_among (e :: l) l'.
(** The line between two of them, and how the text begins. *)
Definition rule : text := [10; 10]%N ++ repeat 61%N 32 ++ [10; 10]%N.
Definition heading (k : perror) (h : text) : Prop :=
  match k with
  | PErr => h = txt "Pipeline: "
  | PFailed => h = txt "Pipeline failed: "
  | PInterrupted => h = txt "Pipeline canceled: "
  | PSuspended => h = txt "Pipeline suspended: "
  end.
