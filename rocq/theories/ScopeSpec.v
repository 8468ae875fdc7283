(** Looking up and assigning names, independently of the scope's code. *)
From Verif Require Import Py PathModel EnvModel ScopeModel.

(** The layers of a lookup, from first to last. *)
Inductive layer := Local | ExportsName | Variables | Enclosing | PyBuiltin.
Definition in_layer (s : sstate) (n : nat) (name : text) (l : layer) : option found :=
  match l with
  | Local => option_map FVal (dget (s_loc s) name)
  | ExportsName => if text_eqb name t_exports then Some (FExports n) else None
  | Variables => option_map FVal (dget (s_vars s n) name)
  | Enclosing => match s_parent s with Some d => option_map FVal (dget d name) | None => None end
  | PyBuiltin => option_map FVal (s_builtin s name)
  end.
Inductive first_hit (s : sstate) (n : nat) (name : text) : list layer -> found -> Prop :=
| hit_here l ls f : in_layer s n name l = Some f -> first_hit s n name (l :: ls) f
| hit_later l ls f : in_layer s n name l = None -> first_hit s n name ls f -> first_hit s n name (l :: ls) f
| hit_command : first_hit s n name [] (FAttr n name).

(** A name that is not treated specially. *)
Definition ordinary (name : text) : Prop := name <> t_under /\ name <> t_env /\ name <> t_last.
(** The scope's environment is [n]. *)
Definition in_env (s : sstate) (n : nat) : Prop := dget (s_loc s) t_env = Some (VEnv n).
(** No name is both local and exported. *)
Definition apart (s : sstate) (n : nat) : Prop := forall name, dmem (s_loc s) name = true -> dmem (s_vars s n) name = false.
(** A step that keeps them apart: assignments at the prompt (within one
    environment), and exporting names that are not local. *)
Definition tidy (n : nat) (s : sstate) (o : sop) : Prop :=
  match o with
  | SAssign name v => name <> t_env
  | SExport m name v => m = n -> dmem (s_loc s) name = false
  | SUnexport _ _ => True
  | SGlobal _ _ => False
  | SDel name => name <> t_env
  end.
Inductive tidy_history (n : nat) : sstate -> list sop -> Prop :=
| th_nil s : tidy_history n s []
| th_cons s o ops : tidy n s o -> tidy_history n (sstep s o) ops -> tidy_history n s (o :: ops).

(** What the user did to one name last, looking only at the operations: [None]
    for "nothing", otherwise the value it should have ([Some None]: none). *)
Definition touches (n : nat) (o : sop) (name : text) : option (option val) :=
  match o with
  | SAssign m v => if text_eqb m name then Some (Some v) else None
  | SGlobal m v => if text_eqb m name then Some (Some v) else None
  | SExport k m v => if Nat.eqb k n && text_eqb m name then Some (Some v) else None
  | SUnexport k m => if Nat.eqb k n && text_eqb m name then Some None else None
  | SDel m => if text_eqb m name then Some None else None
  end.
