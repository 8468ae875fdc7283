(** Histories of starting pieshells. *)
From Verif Require Import Py ConfModel.

(** Nobody but pieshell touches the file. *)
Definition left_alone (a : act) : Prop := match a with AUser _ => False | _ => True end.
(** Nothing goes wrong. *)
Definition smooth (a : act) : Prop := match a with AStart | AStep _ _ => True | _ => False end.
(** All started processes have come to an end. *)
Definition over (s : state) : Prop := Forall (fun p => match p with PDone _ | PFailed | PCrashed => True | _ => False end) (procs s).
