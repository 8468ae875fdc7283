(** What argument expansion is meant to do: ordinary strings, matching of
    patterns, files matched by a pattern in a directory. *)
From Verif Require Import Py PathModel PathSpec EnvModel ExpandModel.

(** Characters the expansion reacts to. *)
Definition no_percent (s : text) : Prop := ~ In c_percent s.
Definition no_glob (s : text) : Prop := ~ In c_star s /\ ~ In c_quest s /\ ~ In c_lbr s.
Definition no_tilde (s : text) : Prop := match s with c :: _ => c <> c_tilde | [] => True end.

(** "%" doubled. *)
Definition escape (s : text) : text := flat_map (fun c => if N.eqb c c_percent then [c_percent; c_percent] else [c]) s.

(** [Class p neg body rest]: after the opening bracket comes a class [body],
    negated by "!"; "]" may only be its first character. *)
Definition Class (p : text) (neg : bool) (body rest : text) : Prop :=
  p = (if neg then [c_bang] else []) ++ body ++ c_rbr :: rest /\
  (exists a b, body = a :: b /\ ~ In c_rbr b /\ (neg = false -> a <> c_bang)).
(** Ranges and single characters of a class. *)
Fixpoint ranges (body : text) : list (N * N) :=
  match body with
  | [] => []
  | a :: b1 =>
      match b1 with
      | d :: z :: r => if N.eqb d c_dash then (a, z) :: ranges r else (a, a) :: ranges b1
      | _ => (a, a) :: ranges b1
      end
  end.
Definition member (body : text) (x : N) : Prop := exists a z, In (a, z) (ranges body) /\ (a <= x /\ x <= z)%N.

(** A name matches a pattern. *)
Inductive Match : text -> text -> Prop :=
| M_end : Match [] []
| M_star p a b : Match p b -> Match (c_star :: p) (a ++ b)
| M_quest p x n : Match p n -> Match (c_quest :: p) (x :: n)
| M_class p neg body rest x n : Class p neg body rest -> (member body x <-> neg = false) -> Match rest n ->
    Match (c_lbr :: p) (x :: n)
| M_bracket p n : (forall neg body rest, ~ Class p neg body rest) -> Match p n -> Match (c_lbr :: p) (c_lbr :: n)
| M_char c p n : c <> c_star -> c <> c_quest -> c <> c_lbr -> Match p n -> Match (c :: p) (c :: n).
(** A name beginning with a dot is matched only by a pattern beginning with one. *)
Definition matches (p n : text) : Prop := Match p n /\ (hidden n = true -> hidden p = true).

(** The directory an environment is in is meant literally, the argument's
    components as patterns. *)
Inductive piece := Lit (n : text) | Pat (p : text).
Definition piece_matches (q : piece) (n : text) : Prop := match q with Lit m => n = m | Pat p => matches p n end.
Definition enter_piece (ps : list piece) (comp : text) : list piece :=
  if text_eqb comp [] then ps
  else if text_eqb comp t_dot then ps
  else if text_eqb comp t_dotdot then removelast ps
  else ps ++ [Pat comp].
Definition pieces (d : dir) (p : text) : list piece :=
  fold_left enter_piece (split_on c_slash p) (if startswith p [c_slash] then [] else map Lit (d_names d)).
(** [Matched t d p q]: the file [q] of the tree is matched by pattern [p] used
    in directory [d]. *)
Definition exists_at (t : node) (q : dir) : Prop := node_at t (d_names q) <> None.
Definition Matched (t : node) (d : dir) (p : text) (q : dir) : Prop :=
  d_two q = d_two (resolve d p) /\ Forall2 piece_matches (pieces d p) (d_names q) /\ exists_at t q.

(** File names are non-empty, without slash, not "." or "..", and unique. *)
Inductive tree_ok : node -> Prop :=
| ok_file : tree_ok NFile
| ok_dir es : Forall name_ok (map fst es) -> NoDup (map fst es) -> Forall tree_ok (map snd es) -> tree_ok (NDir es).

(** Never mistaken for an option. *)
Definition starts_path (s : text) : Prop := (exists r, s = c_slash :: r) \/ (exists r, s = c_dot :: c_slash :: r).
