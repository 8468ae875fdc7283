(** Notions for environments. *)
From Verif Require Import Py PathModel PathSpec EnvModel.

(** os.getcwd() answers an absolute path without "." and "..". *)
Definition machine_ok (m : machine) : Prop := forall p, exists d, dir_ok d /\ m_real m p = render d.
Definition is_dir (p : text) (d : dir) : Prop := dir_ok d /\ p = render d.
(** Environment and dict numbers an operation uses exist, and machines are ok. *)
Definition op_ok (w : world) (o : op) : Prop :=
  match o with
  | ONew _ ex _ => match ex with Some r => r < List.length (w_dicts w) | None => True end
  | ODerive e _ ex _ => e < List.length (w_envs w) /\ match ex with Some r => r < List.length (w_dicts w) | None => True end
  | OCd e _ | OCdCmd e _ | OSet e _ _ | ODel e _ => e < List.length (w_envs w)
  | ODictSet r _ _ => r < List.length (w_dicts w)
  | OMachine m => machine_ok m
  | ODictNew _ | OChdir _ => True
  end.
Inductive reachable : world -> Prop :=
| r_start m pcwd environ d : machine_ok m -> is_dir pcwd d -> reachable (mkW m pcwd [environ] [])
| r_step w o : reachable w -> op_ok w o -> reachable (step w o).

(** The operation works on environment [n] itself. *)
Definition targets (o : op) (n : nat) : Prop :=
  match o with OCd e _ | OCdCmd e _ | OSet e _ _ | ODel e _ => e = n | _ => False end.
(** The operation mentions dict [r] explicitly. *)
Definition mentions (o : op) (r : nat) : Prop :=
  match o with
  | ONew _ (Some q) _ | ODerive _ _ (Some q) _ | ODictSet q _ _ => q = r
  | _ => False
  end.
(** What a user of environment [n] sees: directory and variables. *)
Definition same_view (w w' : world) (n : nat) : Prop :=
  e_cwd (env_at w' n) = e_cwd (env_at w n) /\ exports w' (env_at w' n) = exports w (env_at w n).

(** Several cd's one after the other; the first that fails ends the sequence. *)
Fixpoint cds (w : world) (e : nat) (ps : list text) : world * res unit :=
  match ps with
  | [] => (w, Ok tt)
  | p :: ps' => match do_cd w e p with
                | (w', Ok _) => cds w' e ps'
                | (w', Err z) => (w', Err z)
                end
  end.
(** What an operation does to the variables of environment [n] if only
    assignments through [n] count. *)
Definition own_vars (n : nat) (v : vars) (o : op) : vars :=
  match o with
  | OSet e k x => if e =? n then dset v k x else v
  | ODel e k => if e =? n then ddel v k else v
  | _ => v
  end.
(** A sequence of valid operations none of which mentions dict [r]. *)
Fixpoint history_ok (w : world) (ops : list op) (r : nat) : Prop :=
  match ops with
  | [] => True
  | o :: ops' => op_ok w o /\ ~ mentions o r /\ history_ok (step w o) ops' r
  end.
(** An operand of the cd command: the word PARENT means "..", ROOT means "/". *)
Definition operand (a : text) : text :=
  if list_eq_dec N.eq_dec a (txt "PARENT") then txt ".."
  else if list_eq_dec N.eq_dec a (txt "ROOT") then txt "/"
  else a.
