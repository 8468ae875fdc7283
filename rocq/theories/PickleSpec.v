(** Which pipelines can be sent to another pieshell, and what has to arrive. *)
From Verif Require Import Py PathModel EnvModel PickleModel.

(** The state of a run is not sent: attributes pieshell keeps for itself. *)
Definition run_state (k : text) : Prop :=
  (exists r, k = txt "__" ++ r) \/ k = txt "_running_process" \/ k = txt "_running_processes".
(** [arrived v v']: [v'] is [v], except that run state is dropped, an environment
    has no scope, and its last run is only remembered as the pipeline that ran. *)
Inductive arrived : pv -> pv -> Prop :=
| ar_atom t : arrived (VAtom t) (VAtom t)
| ar_fun i n : arrived (VFun i n) (VFun i n)
| ar_list l l' : Forall2 arrived l l' -> arrived (VList l) (VList l')
| ar_raw t : arrived (VR t) (VR t)
| ar_special t : arrived (VSpecial t) (VSpecial t)
| ar_pipeline c fs fs' : arrived_fields fs fs' -> arrived (VPipeline c fs) (VPipeline c fs')
| ar_env fs fs' : arrived_env fs fs' -> arrived (VEnv fs) (VEnv fs')
with arrived_fields : list (text * pv) -> list (text * pv) -> Prop :=
| af_nil : arrived_fields [] []
| af_keep k v v' r r' : ~ run_state k -> arrived v v' -> arrived_fields r r' -> arrived_fields ((k, v) :: r) ((k, v') :: r')
| af_drop k v r r' : run_state k -> arrived_fields r r' -> arrived_fields ((k, v) :: r) r'
with arrived_env : list (text * pv) -> list (text * pv) -> Prop :=
| ae_nil : arrived_env [] []
| ae_scope v r r' : arrived_env r r' -> arrived_env ((txt "_scope", v) :: r) ((txt "_scope", VAtom (txt "None")) :: r')
| ae_last p p' r r' : arrived p p' -> arrived_env r r' -> arrived_env ((txt "last_pipeline", VRunning p) :: r) ((txt "last_pipeline", p') :: r')
| ae_other k v v' r r' : k <> txt "_scope" -> k <> txt "last_pipeline" -> arrived v v' -> arrived_env r r' ->
    arrived_env ((k, v) :: r) ((k, v') :: r').

(** [part v p]: [p] is a part of [v] that is sent with it. *)
Inductive part : pv -> pv -> Prop :=
| pt_self v : part v v
| pt_list l v p : In v l -> part v p -> part (VList l) p
| pt_pipeline c fs k v p : In (k, v) fs -> ~ run_state k -> part v p -> part (VPipeline c fs) p
| pt_last fs q p : In (txt "last_pipeline", VRunning q) fs -> part q p -> part (VEnv fs) p
| pt_env fs k v p : In (k, v) fs -> k <> txt "_scope" -> k <> txt "last_pipeline" -> part v p -> part (VEnv fs) p.
(** Environments remember a run (base.py:152): nothing else is stored there. *)
Definition last_is_run (v : pv) : Prop := forall fs x, part v (VEnv fs) -> In (txt "last_pipeline", x) fs -> exists p, x = VRunning p.
(** The parts pickle or this program has no way to rebuild. *)
Definition stuck (p : pv) : Prop :=
  (exists n, p = VFun false n) \/ (exists t, p = VR t) \/ (exists t, p = VSpecial t) \/ (exists q, p = VRunning q).
(** A command, its words and its environment. *)
Definition command (words : list pv) (env : pv) : pv :=
  VPipeline (txt "Command") [(txt "_env", env); (txt "_started", VAtom (txt "False")); (txt "_arg", VList words); (txt "_running_process", VAtom (txt "None"))].
(** The environment after [p] has been run in it: base.py:152. *)
Definition after_run (fs : list (text * pv)) (p : pv) : pv := VEnv (fs ++ [(txt "last_pipeline", VRunning p)]).
