(** Model of the python path functions used by /repo/pieshell/environ.py:71-76, 85,
    88, 95-96 (os.path.join, abspath/normpath, expanduser of the standard
    library's posixpath). *)
From Verif Require Import Py.
From Coq Require Import Ascii.

(** A python str: code points (as in Utf8Model.v). *)
Notation text := (list N) (only parsing).
Definition c_slash : N := 47%N.
Definition c_dot : N := 46%N.
Definition c_tilde : N := 126%N.
Definition t_dot : text := [c_dot].
Definition t_dotdot : text := [c_dot; c_dot].
(** Literals for examples. *)
Definition txt (s : string) : text := map N_of_ascii (list_ascii_of_string s).

Fixpoint text_eqb (a b : text) : bool :=
  match a, b with
  | [], [] => true
  | x :: a', y :: b' => N.eqb x y && text_eqb a' b'
  | _, _ => false
  end.
Lemma text_eqb_spec a b : reflect (a = b) (text_eqb a b).
Proof.
  revert b; induction a as [|x a IH]; intros [|y b]; cbn; try (constructor; congruence).
  destruct (N.eqb_spec x y) as [->|]; cbn; [|constructor; congruence].
  destruct (IH b) as [->|]; constructor; congruence.
Qed.
#[global] Instance Key_text : Key text := {| keqb := text_eqb; keqb_spec := text_eqb_spec |}.

(** str.startswith *)
Fixpoint startswith (s p : text) : bool :=
  match p, s with
  | [], _ => true
  | c :: p', d :: s' => N.eqb c d && startswith s' p'
  | _, [] => false
  end.
(** str.endswith("/") *)
Definition ends_slash (s : text) : bool := match rev s with c :: _ => N.eqb c c_slash | [] => false end.
(** str.split(sep) for a one character separator: always at least one piece *)
Fixpoint split_on (sep : N) (s : text) : list text :=
  match s with
  | [] => [[]]
  | c :: s' => if N.eqb c sep then [] :: split_on sep s'
               else match split_on sep s' with
                    | p :: ps => (c :: p) :: ps
                    | [] => [[c]]
                    end
  end.
(** sep.join(pieces) *)
Fixpoint join_with (sep : text) (ps : list text) : text :=
  match ps with
  | [] => []
  | [p] => p
  | p :: ps' => p ++ sep ++ join_with sep ps'
  end.
(** str.rstrip("/") *)
Fixpoint lstrip_slash (s : text) : text :=
  match s with c :: s' => if N.eqb c c_slash then lstrip_slash s' else s | [] => [] end.
Definition rstrip_slash (s : text) : text := rev (lstrip_slash (rev s)).

(** posixpath.join(a, b) *)
Definition path_join (a b : text) : text :=
  if startswith b [c_slash] then b
  else match a with
       | [] => b
       | _ => if ends_slash a then a ++ b else a ++ [c_slash] ++ b
       end.
(** posixpath.join(a, *p) *)
Definition path_join_all (a : text) (ps : list text) : text := fold_left path_join ps a.

(** posixpath.normpath, the loop over components; [new] is new_comps in reverse *)
Definition norm_step (initial : nat) (new : list text) (comp : text) : list text :=
  if text_eqb comp [] || text_eqb comp t_dot then new
  else if negb (text_eqb comp t_dotdot) || ((initial =? 0) && match new with [] => true | _ => false end)
          || match new with c :: _ => text_eqb c t_dotdot | [] => false end
       then comp :: new
       else match new with _ :: new' => new' | [] => [] end.
Definition initial_slashes (p : text) : nat :=
  if startswith p [c_slash]
  then if startswith p [c_slash; c_slash] && negb (startswith p [c_slash; c_slash; c_slash]) then 2 else 1
  else 0.
Definition normpath (p : text) : text :=
  match p with
  | [] => t_dot
  | _ =>
      let i := initial_slashes p in
      let comps := rev (fold_left (norm_step i) (split_on c_slash p) []) in
      let q := repeat c_slash i ++ join_with [c_slash] comps in
      match q with [] => t_dot | _ => q end
  end.
(** posixpath.abspath; [pcwd] is os.getcwd() *)
Definition abspath (pcwd p : text) : text :=
  normpath (if startswith p [c_slash] then p else path_join pcwd p).

(** posixpath.expanduser.  [home name] is the home directory of user [name]
    (pwd.getpwnam), [home []] the one of the current user: os.environ["HOME"] of
    the process, or the password database.  Note that the variables of the
    pieshell environment are not consulted. *)
Fixpoint before_slash (s : text) : text * text :=
  match s with
  | [] => ([], [])
  | c :: s' => if N.eqb c c_slash then ([], s) else let '(a, b) := before_slash s' in (c :: a, b)
  end.
Definition expanduser (home : text -> option text) (p : text) : text :=
  match p with
  | c :: r =>
      if N.eqb c c_tilde then
        let '(name, rest) := before_slash r in
        match home name with
        | None => p
        | Some h => match rstrip_slash h ++ rest with [] => [c_slash] | q => q end
        end
      else p
  | [] => p
  end.
