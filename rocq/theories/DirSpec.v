(** What a completion list should be. *)
From Verif Require Import Py PathModel PathSpec DirModel.
From Coq Require Import Permutation Sorted.

(** Alphabetical order of strings, by code points. *)
Inductive alphabetical : list N -> list N -> Prop :=
| al_nil b : alphabetical [] b
| al_less x y a b : (x < y)%N -> alphabetical (x :: a) (y :: b)
| al_same x a b : alphabetical a b -> alphabetical (x :: a) (x :: b).
(** The directories of a PATH: its pieces between colons, in the environment's
    directory. *)
Inductive pieces : list N -> list (list N) -> Prop :=
| pc_last p : ~ In 58%N p -> pieces p [p]
| pc_more p rest l : ~ In 58%N p -> pieces rest l -> pieces (p ++ 58%N :: rest) (p :: l).
(** [listing s dirs ls]: the contents of the directories [dirs], one list each.
    A directory is named relative to the environment's (see PathSpec.resolve). *)
Inductive listing (files : list N -> option (list (list N))) (cwd : dir) : list (list N) -> list (list (list N)) -> Prop :=
| li_nil : listing files cwd [] []
| li_cons p l ps ls : files (render (resolve cwd p)) = Some l -> listing files cwd ps ls -> listing files cwd (p :: ps) (l :: ls).
(** [completions s cwd l]: [l] is the alphabetical list of everything in the
    directories of PATH and of the builtins. *)
Definition completions (s : denv) (cwd : dir) (l : list (list N)) : Prop :=
  exists path dirs ls, d_path s = Some path /\ pieces path dirs /\ listing (d_list s) cwd dirs ls /\
    Permutation l (List.concat ls ++ d_builtins s) /\ StronglySorted alphabetical l.
