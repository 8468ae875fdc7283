(** What the printed form of a process is expected to tell. *)
From Coq Require Import Decimal DecimalString.
From Verif Require Import Py WorldModel WorldSpec.
Local Open Scope string_scope.
Definition decimal (n : N) : string := NilEmpty.string_of_uint (N.to_uint n).
(** [e]: what last happened to the process, None: nothing yet; [more]: the texts about its
    output files, each after a comma. *)
Definition told (pid : N) (e : option child_event) (more : string) : string :=
  match e with
  | None | Some CCont => decimal pid
  | Some (CExit c) => decimal pid ++ " (exit_code=" ++ decimal c ++ more ++ ")"
  | Some (CStop s) => decimal pid ++ " (status=5, signal=" ++ decimal s ++ ")"
  | Some (CKill s false) => decimal pid ++ " (status=2, signal=" ++ decimal s ++ ")"
  | Some (CKill s true) => decimal pid ++ " (status=3, signal=" ++ decimal s ++ ")"
  end.
Definition listed (files : list string) : string := fold_right (fun f r => ", " ++ f ++ r) "" files.
(** What last happened to the process, as far as pieshell has been told. *)
Definition last_happened (w : world) (i : nat) (e : option child_event) : Prop :=
  match e with None => w_hist w i = [] | Some x => exists h, w_hist w i = List.app h [x] end.
(** The process did not itself send SIGTSTP to pieshell. *)
Definition only_children_signals (w : world) (i : nat) : Prop := forall x, In x (i_seen (w_item w i)) -> ssi_signo x = SIGCHLD.
