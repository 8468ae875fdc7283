(** What a session leaves in log files and on the terminal. *)
From Verif Require Import Py RedirModel Os PerformModel RunModel RunSpec RunTopSpec IterModel FileModel FileSpec FileProofs NetModel NetSpec JobSpec EnvRedirModel EnvRedirSpec LogModel.

(** The file the standard output of environment e goes to after the statements h. *)
Definition goes_to (h : list envop) (e : nat) : option path :=
  match last_for 1 (settings h e) with Some r => match r_source r with SPath p => Some p | _ => None end | None => None end.
(** Every environment used exists and was made by Environment() or derived from such a one;
    only standard outputs are set, each to a file that is appended to (or is as [way] says);
    the programs come to their end on what they read. *)
Fixpoint proper (L : limits) (way : redirect -> Prop) (h : list envop) (l : list stmt) (outs : list (list N)) : Prop :=
  match l, outs with
  | [], [] => True
  | SEnv op :: l', _ => sensible 0 (h ++ [op]) /\ proper L way (h ++ [op]) l' outs
  | SRun e c cs progs typed :: l', out :: outs' =>
      e < List.length (filter makes h) /\ made_with h (user h e) = standard /\
      Forall (fun r => (exists p, to_path L r p) /\ way r) (settings h e) /\
      List.length progs = S (List.length cs) /\ all_give progs typed true out true /\
      proper L way h l' outs'
  | _, _ => False
  end.
(** Appending, or what a redirect to a file is when nothing is said. *)
Definition appends (r : redirect) : Prop := appending (r_flag r).
Definition plain_file (r : redirect) : Prop := exists p, to_file p = Ok r.
(** What is to be added to log file p; what is to be shown ([p] = None). *)
Fixpoint logged_to (p : option path) (h : list envop) (l : list stmt) (outs : list (list N)) : list N :=
  match l, outs with
  | SEnv op :: l', _ => logged_to p (h ++ [op]) l' outs
  | SRun e _ _ _ _ :: l', out :: outs' =>
      (match p, goes_to h e with
       | Some p, Some q => if path_eqb p q then out else []
       | None, None => out
       | _, _ => []
       end) ++ logged_to p h l' outs'
  | _, _ => []
  end.
