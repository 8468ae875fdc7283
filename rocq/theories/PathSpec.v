(** Directories as lists of names, and what "resolving a path lexically" means,
    independently of the string functions. *)
From Verif Require Import Py PathModel.

(** A directory: the names from the root down.  POSIX lets a path begin with
    exactly two slashes and python keeps them apart from one. *)
Record dir := mkDir { d_two : bool; d_names : list text }.
Definition name_ok (n : text) : Prop := n <> [] /\ n <> t_dot /\ n <> t_dotdot /\ ~ In c_slash n.
Definition dir_ok (d : dir) : Prop := Forall name_ok (d_names d).

(** "/" or "//" followed by the names separated by slashes. *)
Definition render (d : dir) : text :=
  (if d_two d then [c_slash; c_slash] else [c_slash]) ++ join_with [c_slash] (d_names d).

(** One step: stay for an empty or "." component, go up for "..", else down. *)
Definition enter (names : list text) (comp : text) : list text :=
  if text_eqb comp [] then names
  else if text_eqb comp t_dot then names
  else if text_eqb comp t_dotdot then removelast names
  else names ++ [comp].
(** The components of a path are the pieces between slashes. *)
Definition walk (d : dir) (p : text) : dir :=
  mkDir (d_two d) (fold_left enter (split_on c_slash p) (d_names d)).
(** Where an absolute path begins. *)
Definition root_of (p : text) : dir := mkDir (initial_slashes p =? 2) [].
Definition is_abs (p : text) : Prop := exists r, p = c_slash :: r.

(** [resolve d p]: where [p] leads from [d] when "~" plays no role. *)
Definition resolve (d : dir) (p : text) : dir :=
  if startswith p [c_slash] then walk (root_of p) p else walk d p.
