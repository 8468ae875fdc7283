(** What a PipelineError says: PipelineError.__str__ (/repo/pieshell/pipeline/running.py:47-61)
    with the printed forms of the failed items, RunningFunction.__repr__ (232-244) and
    RunningProcess.__repr__ (282-289).  repr() of a pipeline or of a part of one is a
    parameter here (ReprModel.v models it; base.py:30-43: inside repr() it raises nothing
    and, C72, runs nothing). *)
From Verif Require Import Py PathModel EnvModel RedirModel IterModel Utf8Model FinishModel.

(** str() of a descriptor number *)
Fixpoint digits (fuel n : nat) : text :=
  match fuel with
  | 0 => []
  | S f => (if n <? 10 then [] else digits f (n / 10)) ++ [N.of_nat (48 + n mod 10)]
  end.
Definition str_nat (n : nat) : text := digits (S n) n.

(** redir.py:64-65 names_to_fd, as used at running.py:287: names_to_fd.get(fd, fd) *)
Definition fd_text (fd : nat) : text :=
  match find (fun e => Nat.eqb (snd e) fd) fd_names with
  | Some (s, _) => txt s
  | None => str_nat fd
  end.

(** The items of a running pipeline.
    [EProc cmd it status]: running.py:255-289 a process: repr() of its command, its
    captured output, its exit code.
    [EFun name fd usage enabled ended tb]: running.py:228-244 a function: its name
    (function.py:42-56), the number of its output descriptor, repr() of its pipeline
    (function.py:108-111, usage), whether its handler is enabled and whether it has ended, and
    traceback.format_exception of its exception if it has one.
    [EFg running failed]: builtins.py:57-69. *)
Inductive eitem :=
| EProc (cmd : text) (it : item) (running : bool) (status : N)
| EFun (name : text) (fd : nat) (usage : text) (enabled ended : bool) (tb : option text)
| EFg (running failed : bool).

(** running.py:199-201 is_running, iterio.py:76-78, builtins.py:61-63 *)
Definition e_running (e : eitem) : bool :=
  match e with EProc _ _ r _ => r | EFun _ _ _ _ ended _ => negb ended | EFg r _ => r end.
(** running.py:276-281, 229-231 (iterio.py:80-83: no exception before the end), builtins.py:64-66 is_failed *)
Definition e_failed (e : eitem) : bool :=
  match e with
  | EProc _ _ _ s => negb (N.eqb s 0)
  | EFun _ _ _ _ ended tb => ended && match tb with Some _ => true | None => false end
  | EFg _ f => f
  end.
(** running.py:123-127 failed_processes *)
Definition failed_processes (l : list eitem) : list eitem := filter (fun e => negb (e_running e) && e_failed e) l.

(** iterio.py:56-62, 120-124 _repr_args of the output handler *)
Definition fun_args (fd : nat) (usage : text) (enabled ended : bool) : list text :=
  [str_nat fd; txt "for " ++ usage] ++ (if enabled then [txt "enabled"] else []) ++ (if ended then [txt "stopped"] else []).
(** running.py:282-289 RunningProcess.__repr__(display_output=True), 232-244 of a function
    (iterio.py:80-83: no exception before the end).  BaseRunningItem has no __repr__ of its
    own, so that of a RunnningFg is python's object.__repr__, which has no such argument. *)
Definition e_repr (e : eitem) : res text :=
  match e with
  | EProc cmd it _ _ => Ok (cmd ++ [10%N] ++
      List.concat (map (fun c => fd_text (fst c) ++ txt " content:" ++ [10%N] ++ snd c ++ [10%N]) (it_content it)))
  | EFun name fd usage enabled ended tb =>
      Ok (name ++ txt " (" ++ join_with (txt ", ") (fun_args fd usage enabled ended) ++ txt ")" ++
          match (if ended then tb else None) with Some t => [10%N] ++ t | None => [] end)
  | EFg _ _ => Err TypeError
  end.
Fixpoint reprs (l : list eitem) : res (list text) :=
  match l with [] => Ok [] | e :: l' => let* t := e_repr e in let* ts := reprs l' in Ok (t :: ts) end.

(** running.py:48,59-61 the description of each class *)
Inductive perror := PErr | PFailed | PInterrupted | PSuspended.
Definition description (k : perror) : text :=
  txt (match k with PErr => "Pipeline" | PFailed => "Pipeline failed" | PInterrupted => "Pipeline canceled" | PSuspended => "Pipeline suspended" end).
(** running.py:55 *)
Definition separator : text := [10%N; 10%N] ++ txt "================================" ++ [10%N; 10%N].
(** running.py:51-57 PipelineError.__str__; [shown] is repr() of the pipeline *)
Definition error_text (k : perror) (shown : text) (l : list eitem) : res text :=
  let* ts := reprs (failed_processes l) in
  Ok (description k ++ txt ": " ++ shown ++ txt ":" ++ [10%N; 10%N] ++ join_with separator ts).
