(** Specification of redirect sets, independent of how they are stored: a
    history of registrations (oldest first) determines, for each descriptor,
    the redirect in force. *)
From Verif Require Import Py RedirModel.

(** What a user does to a redirect set. *)
Inductive rop :=
| OpRegister (r : redirect)            (* rs.register(r), rs.redirect(...) *)
| OpRegisterAll (other : redirects)    (* rs.register(other) *)
| OpMerge (other : redirects)          (* rs = rs.merge(other) *)
| OpBorrow.                            (* rs.borrow() *)

Definition apply_op (rs : redirects) (o : rop) : res redirects :=
  match o with
  | OpRegister r => register rs r
  | OpRegisterAll o => register_all rs o
  | OpMerge o => merge rs o
  | OpBorrow => Ok (borrow rs)
  end.
Fixpoint apply_ops (rs : redirects) (os : list rop) : res redirects :=
  match os with
  | [] => Ok rs
  | o :: os' => let* rs' := apply_op rs o in apply_ops rs' os'
  end.

(** The redirect in force for descriptor [n], as a function of what was in force
    before ([now]). *)
Definition force_register (n : nat) (r : redirect) (now : option redirect) : option redirect :=
  if Nat.eqb (r_fd r) n
  then match r_source r with SNone => None | _ => Some r end
  else now.
(** Registering a whole set: only its own entry for [n] matters. *)
Definition force_set (n : nat) (other : redirects) (now : option redirect) : option redirect :=
  match dget other n with Some r => Some r | None => now end.
Definition in_force (n : nat) (now : option redirect) (o : rop) : option redirect :=
  match o with
  | OpRegister r => force_register n r now
  | OpRegisterAll o | OpMerge o => force_set n o now
  | OpBorrow => option_map borrow1 now
  end.

(** An operation is refused exactly when it removes a redirect that is not
    there. *)
Definition op_wf (o : rop) : Prop :=
  match o with OpRegisterAll o | OpMerge o => wf_redirects o | _ => True end.
