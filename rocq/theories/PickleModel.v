(** Model of pickling a pipeline for the remote builtin and for --pcmd:
    describable_object_reduce and DescribableObject.__setstate__
    (/repo/pieshell/pipeline/base.py:49-78), Environment.__getstate__
    (environ.py:191-196), R (environ.py:18-27) and SpecialRedirect
    (redir.py:19-39) under the standard library's pickle. *)
From Verif Require Import Py PathModel EnvModel CommandModel.

(** Values as pickle sees them.  [VAtom]: strings, numbers, None, classes and
    other objects pickle handles itself and that have no parts.  [VFun]: a
    function, [importable] if it can be found again under its module and name (a
    lambda, a local function or a generator cannot).  [VList]: list, tuple, dict
    or an object with the default protocol (Redirects, Redirect, LineList).
    [VR]: R(t).  [VSpecial]: an instance of TMP or STRING, as make_pipe leaves it
    in a redirect (redir.py:128-132).  [VPipeline], [VEnv]: a pipeline or an
    environment with its attributes.  [VRunning p]: a RunningPipeline of [p].
    Simplification: an object that is reached a second time (pickle's memo) is a
    [VAtom]. *)
Inductive pv :=
| VAtom (t : text) | VFun (importable : bool) (name : text) | VList (l : list pv) | VR (t : text) | VSpecial (t : text)
| VPipeline (cls : text) (fields : list (text * pv)) | VEnv (fields : list (text * pv)) | VRunning (p : pv).

(** base.py:53-56: the attributes that are stored *)
Definition stored_field (k : text) : bool :=
  negb (startswith k (txt "__")) && negb (tmem k (map txt ["_running_process"; "_running_processes"]%string)).
(** pickle.dumps: what is stored, or the error.  [py311]: python 3.11 or later,
    where type has an attribute __getstate__, so base.py:51-52 calls
    object.__getstate__ without an argument.  [env_fields]: environ.py:191-196. *)
Section Dumps.
  Context (py311 : bool).
  Fixpoint dumps (v : pv) : res pv :=
    let fix each (l : list pv) : res (list pv) :=
      match l with [] => Ok [] | v :: r => let* a := dumps v in let* b := each r in Ok (a :: b) end in
    let fix fields_of (l : list (text * pv)) : res (list (text * pv)) :=
      match l with
      | [] => Ok []
      | (k, v) :: r => if stored_field k then let* a := dumps v in let* b := fields_of r in Ok ((k, a) :: b) else fields_of r
      end in
    let fix env_fields (l : list (text * pv)) : res (list (text * pv)) :=
      match l with
      | [] => Ok []
      | (k, v) :: r =>
          let* a := (if text_eqb k (txt "_scope") then Ok (VAtom (txt "None"))
                     else if text_eqb k (txt "last_pipeline") then match v with VRunning p => dumps p | _ => Err AttributeError end
                     else dumps v) in
          let* b := env_fields r in Ok ((k, a) :: b)
      end in
    match v with
    | VAtom t => Ok (VAtom t)
    | VFun i n => if i then Ok v else Err PicklingError
    | VList l => let* l' := each l in Ok (VList l')
    | VR t => Ok (VR t)
    | VSpecial t => Ok (VSpecial t)
    | VPipeline c fs => if py311 then Err TypeError else let* fs' := fields_of fs in Ok (VPipeline c fs')
    | VEnv fs => let* fs' := env_fields fs in Ok (VEnv fs')
    | VRunning p => let* p' := dumps p in Ok (VRunning p')
    end.
End Dumps.
(** pickle.loads: pickle makes the object without calling __init__ and then looks
    for __setstate__, which the __getattr__ of R, of SpecialRedirect and of
    RunningItem (running.py:221-222) answers by looking for an attribute of the
    object, which is not there yet, so it calls itself. *)
Fixpoint loads (v : pv) : res pv :=
  let fix each (l : list pv) : res (list pv) :=
    match l with [] => Ok [] | v :: r => let* a := loads v in let* b := each r in Ok (a :: b) end in
  let fix fields (l : list (text * pv)) : res (list (text * pv)) :=
    match l with [] => Ok [] | (k, v) :: r => let* a := loads v in let* b := fields r in Ok ((k, a) :: b) end in
  match v with
  | VAtom t => Ok (VAtom t)
  | VFun i n => Ok (VFun i n)
  | VList l => let* l' := each l in Ok (VList l')
  | VR _ | VSpecial _ | VRunning _ => Err RecursionError
  | VPipeline c fs => let* fs' := fields fs in Ok (VPipeline c fs')
  | VEnv fs => let* fs' := fields fs in Ok (VEnv fs')
  end.
(** sending a pipeline: dumps here, loads there *)
Definition send (py311 : bool) (v : pv) : res pv := let* s := dumps py311 v in loads s.
