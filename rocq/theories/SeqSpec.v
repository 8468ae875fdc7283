(** What a file holds after a job has been redirected to it. *)
From Verif Require Import Py RedirModel Os FileModel FileSpec FileProofs.

(** cmd > "p" (redir.py:95-106), or the same with O_TRUNC or O_APPEND given explicitly. *)
Definition sends_to (r : redirect) (p : path) : Prop :=
  to_file p = Ok r \/ (r_source r = SPath p /\ (truncating (r_flag r) \/ appending (r_flag r))).
(** What there is in the file, which held [old], when [w] has been written by it. *)
Definition then_holds (r : redirect) (old w : list N) : list N :=
  if has (r_flag r) O_TRUNC then w else if has (r_flag r) O_APPEND then old ++ w else w ++ skipn (List.length w) old.
