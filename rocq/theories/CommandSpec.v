(** What a command line written in python stands for. *)
From Verif Require Import Py PathModel EnvModel ExpandModel CommandModel.

(** The words a spelling adds, in order. *)
Definition dict_arg (kw : list (text * kwval)) : list arg := match kw with [] => [] | _ => [ADict kw] end.
Definition step_words (s : CommandModel.step) : list arg :=
  match s with
  | SAttr n => [AStr n]
  | SCall pos kw => pos ++ dict_arg kw
  | SMinus n => [AStr (c_dash :: n)]
  end.
Definition spelled (first : text) (ss : list CommandModel.step) : list arg :=
  (if text_eqb first (txt "_") then [] else [AStr first]) ++ flat_map step_words ss.
(** Attribute names that mean something else. *)
Definition reserved : list text :=
  map txt ["run"; "run_interactive"; "async_run_interactive"; "to_dataframe"; "mro"; "name"; "parse_decls"]%string.
Definition env_reserved : list text :=
  map txt ["running_pipelines"; "last_pipeline"; "temporary_env"; "pyshfunction"; "__getstate__"; "__setstate__"]%string.
Definition writable (s : CommandModel.step) : Prop :=
  match s with
  | SAttr n => ~ In n reserved
  | SCall _ _ => True
  | SMinus n => ~ In n env_reserved /\ n <> txt "_"
  end.

(** [dashed a b]: b is a with every underscore turned into a dash. *)
Definition dashed (a b : text) : Prop := Forall2 (fun x y => (x = 95%N -> y = 45%N) /\ (x <> 95%N -> y = x)) a b.

Section Contributes.
  Context (w : world) (cwd : text) (sc : scope).
  (** The words one value stands for. *)
  Inductive value_words : arg -> list word -> Prop :=
  | vw_str t ws : expand_str w cwd sc t = Ok ws -> value_words (AStr t) (map WStr ws)
  | vw_raw t : value_words (AR t) [WStr t]
  | vw_obj t p : value_words (AObj t p) [WObj t p]
  | vw_pipe h fd : value_words (APipe h fd) [WStr (txt "/dev/fd/" ++ fd_text fd)].
  (** The words one named argument stands for. *)
  Inductive named_words : text * kwval -> list word -> Prop :=
  | nw_false n : named_words (n, KFalse) []
  | nw_true n m : dashed n m -> named_words (n, KTrue) [WStr (txt "--" ++ m)]
  | nw_val n m a ws : dashed n m -> value_words a ws ->
      named_words (n, KVal a) (map (fun x => WStr (txt "--" ++ m ++ txt "=" ++ word_str x)) ws).
  Inductive contributes : arg -> list word -> Prop :=
  | c_value a ws : value_words a ws -> contributes a ws
  | c_dict kw parts : Forall2 named_words kw parts -> contributes (ADict kw) (List.concat parts).
End Contributes.
