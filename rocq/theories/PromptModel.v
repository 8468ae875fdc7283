(** Model of the prompt of the default configuration,
    /repo/pieshell/resources/default_config.pysh:28-61. *)
From Verif Require Import Py PathModel EnvModel.

(** default_config.pysh:29-33 compress_user; the home directory is
    os.path.expanduser('~') *)
Definition compress_user (w : world) (path : text) : text :=
  let home := expanduser (m_home (w_m w)) [c_tilde] in
  if startswith path home then c_tilde :: skipn (List.length home) path else path.

(** What the prompt reads and writes: prompt_state.in_prompt and the
    environment's attribute last_pipeline: a pipeline that was run, or the command
    called last_pipeline, which is what environ.py:130-138 answers if the
    attribute was never set. *)
Inductive lastp := Ran (n : nat) | NoPipeline.
Record prompting := mkPr { in_prompt : bool; last_pipeline : option lastp }.
(** default_config.pysh:45-59 prompt.  [body] computes the text (lines 53-54: it
    runs git, whose pipelines become last_pipeline) and may raise; [old] is the
    plain prompt.  Simplification: temporary_env is C57. *)
Definition prompt {A} (old : A) (body : prompting -> prompting * res A) (s : prompting) : prompting * res A :=
  if in_prompt s then (s, Ok old)
  else let last := match last_pipeline s with Some l => l | None => NoPipeline end in
       let '(s', r) := body (mkPr true (last_pipeline s)) in
       (mkPr false (Some last), r).
