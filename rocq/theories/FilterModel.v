(** filter(func) of /repo/pieshell/utils/jsonutils.py:13-21, which returns a function to be
    used in a pipeline. *)
From Verif Require Import Py IterModel Utf8Model KindModel.

(** jsonutils.py:14-19, apply_filter; [func] may raise.  Lines are never None
    (jsonutils.py:16-17). *)
CoFixpoint filter_gen (func : text -> res bool) : sgen :=
  SLoop (fun o => match o with
                  | None => SEnd EStop
                  | Some l => match func l with Ok true => SGive (VStr l) (filter_gen func) | Ok false => filter_gen func | Err e => SEnd (ERaise e) end
                  end).
(** How CPython finds a name that a function does not assign *)
Definition name_found (name : string) (globals builtins : list string) : bool := existsb (String.eqb name) globals || existsb (String.eqb name) builtins.
(** jsonutils.py:13-21; line 20 assigns to an attribute of apply_map, which is a local variable
    of map, jsonutils.py:4, but not of filter.  [globals]: the names in the module. *)
Definition json_filter (globals builtins : list string) (func : text -> res bool) : res obj :=
  if name_found "apply_map" globals builtins then Ok (OGen (filter_gen func)) else Err NameError.
