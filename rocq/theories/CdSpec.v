(** What completion of cd should offer. *)
From Verif Require Import Py PathModel PathSpec EnvModel EnvSpec CommandModel CommandSpec.

(** The directory [n] in [d]. *)
Definition below (d : dir) (n : text) : dir := mkDir (d_two d) (d_names d ++ [n]).
(** Listings agree with what there is. *)
Definition true_listing (m : machine) (lists : text -> option (list (text * kind))) : Prop :=
  forall d l, dir_ok d -> lists (render d) = Some l -> forall n k, In (n, k) l <-> name_ok n /\ m_kind m (render (below d n)) = Some k.
(** Where cd(args) leads: there it is when it has been run. *)
Definition leads (w : world) (e : nat) (args : list text) (q : dir) : Prop :=
  exists w0, do_cd w e (cd_path args) = (w0, Ok tt) /\ is_dir (e_cwd (env_at w0 e)) q.
(** An ordinary name: it is not a word with a meaning of its own. *)
Definition ordinary (n : text) : Prop := ~ In n reserved /\ n <> txt "PARENT" /\ n <> txt "ROOT".
(** Running it succeeds and takes environment [e] to [d]. *)
Definition takes_to (e : nat) (r : option (world * res unit)) (d : dir) : Prop :=
  exists w', r = Some (w', Ok tt) /\ e_cwd (env_at w' e) = render d.
(** The directory above; that of the root is the root. *)
Definition above (d : dir) : dir := mkDir (d_two d) (removelast (d_names d)).
(** Something is written in the words. *)
Definition says (args : list text) : Prop := exists a, In a args /\ a <> [].
