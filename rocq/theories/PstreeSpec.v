(** What one expects of the process tree. *)
From Verif Require Import Py PathModel TreeModel PstreeModel.

Section Gen.
  Context {A : Type}.
  (** What is reached by following names, and what there is at the end. *)
  Fixpoint gfollow (t : gtree A) (path : list text) : option (gtree A) :=
    match path with
    | [] => Some t
    | k :: path' => match t with
                    | GLeaf _ => None
                    | GGroup cs => match dget cs k with Some t' => gfollow t' path' | None => None end
                    end
    end.
  Definition gfound (t : gtree A) (path : list text) (a : A) : Prop := gfollow t path = Some (GLeaf a).
End Gen.
(** A slugify that leaves pid_ and a number alone. *)
Definition keeps_pids (slug : text -> text) : Prop := forall n, slug (txt "pid_" ++ id_text n) = txt "pid_" ++ id_text n.
(** psutil answers for it (or denies access): it has not gone and is no zombie. *)
Definition answers (p : psproc) : Prop := ps_exe p <> Gone /\ ps_cmdline p <> Gone.
Definition distinct_pids (l : list psproc) : Prop := NoDup (map ps_pid l).
(** The last part of the executable's path. *)
Definition program (p : psproc) (n : text) : Prop := exists t, ps_exe p = Said t /\ List.last (split_on c_slash t) [] = n.
(** The attribute a text becomes: its slug, with an n before a digit. *)
Definition attr_name (slug : text -> text) (n : text) : text :=
  match slug n with
  | c :: rest => if is_digit c then 110%N :: c :: rest else c :: rest
  | [] => []
  end.
(** What psutil.users() tells of a login, and the login itself. *)
Definition login_of (u : utmp) (l : login) : Prop := l_name l = u_name u /\ l_host l = u_host u /\ u_process u = Some (l_process l).
Definition login_pid (l : login) : nat := ps_pid (l_process l).
(** The children a tree offers, by the names it lists. *)
Definition reaches (info : list text) (t : res (gtree psproc)) (k : text) : Prop := exists c, proc_get info t k = PChild c.
