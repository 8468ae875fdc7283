(** How a process is shown in the printed form of the command it runs:
    RunningProcess._repr (/repo/pieshell/pipeline/running.py:290-308), siginfo_to_names
    (signalio/signalutils.py:20-38; only the entry ssi_code of its result is looked at)
    and the " as ..." of BaseCommand._repr (command.py:116-123).  The state is that of
    WorldModel.v. *)
From Coq Require Import Decimal DecimalString.
From Verif Require Import Py WorldModel.
Local Open Scope string_scope.

(** "%s" % n for an int n >= 0 (CPython) *)
Definition num (n : N) : string := NilEmpty.string_of_uint (N.to_uint n).
(** signalutils.py:24-31: the name of a code, or the code *)
Inductive name_or_code := Name (s : string) | Code (n : N).
Definition code_name (c : N) : name_or_code :=
  match c with
  | 1 => Name "CLD_EXITED" | 2 => Name "CLD_KILLED" | 3 => Name "CLD_DUMPED" | 4 => Name "CLD_TRAPPED"
  | 5 => Name "CLD_STOPPED" | 6 => Name "CLD_CONTINUED" | n => Code n
  end%N.
Definition is_name (x : name_or_code) (s : string) : bool := match x with Name t => String.eqb t s | Code _ => false end.
(** ', '.join *)
Fixpoint commas (l : list string) : string := match l with [] => "" | [x] => x | x :: r => x ++ ", " ++ commas r end.
(** running.py:290-308.  [files]: "%s=%s" of the entries of output_files, in order.
    None: TypeError (last_event is None). *)
Definition proc_repr (pid : N) (last : option siginfo) (running : bool) (files : list string) : option string :=
  let finish status := Some (num pid ++ match status with [] => "" | _ => " (" ++ commas status ++ ")" end) in
  if running then
    match last with
    | Some e => finish (if negb (is_name (code_name (ssi_code e)) "CLD_CONTINUED")
                        then ["status=" ++ num (ssi_code e); "signal=" ++ num (ssi_status e)] else [])
    | None => finish []
    end
  else match last with Some e => finish (("exit_code=" ++ num (ssi_status e)) :: files) | None => None end.
(** The same for the i-th item started: running.py:199-201 is_running, signalio/__init__.py:47,54 last_event *)
Definition item_repr (w : world) (i : nat) (files : list string) : option string :=
  match i_kind (w_item w i) with KProc pid => proc_repr pid (i_last (w_item w i)) (item_running w i) files | _ => None end.
(** command.py:116-123; [cmd]: the printed form without this *)
Definition command_repr (cmd : string) (w : world) (i : nat) (files : list string) : option string :=
  match item_repr w i files with Some s => Some (cmd ++ " as " ++ s) | None => None end.
