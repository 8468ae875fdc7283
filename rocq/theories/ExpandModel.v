(** Model of Environment._expand_argument, /repo/pieshell/environ.py:77-94, with
    the python primitives it calls: str % mapping, os.path.expanduser
    (PathModel.v), glob.glob and fnmatch. *)
From Verif Require Import Py PathModel EnvModel.

Definition c_percent : N := 37%N.
Definition c_lpar : N := 40%N.
Definition c_rpar : N := 41%N.
Definition c_star : N := 42%N.
Definition c_quest : N := 63%N.
Definition c_lbr : N := 91%N.
Definition c_rbr : N := 93%N.
Definition c_bang : N := 33%N.
Definition c_dash : N := 45%N.
Definition c_s : N := 115%N.
Definition mem (c : N) (s : text) : bool := existsb (N.eqb c) s.

(** ** str % mapping (CPython's PyUnicode_Format), used at environ.py:84.
    [sc_get k] is str(scope[k]) or the exception of the lookup; [sc_whole] is
    str(scope); [sc_conv spec conv v] is what a conversion other than a plain
    "%s" yields (the C level formatting itself is not modelled). *)
Record scope := mkScope { sc_get : text -> res text; sc_whole : text; sc_conv : text -> N -> text -> res text }.
(** A dict of strings as scope: Environment._exports. *)
Definition vars_scope (whole : text) (conv : text -> N -> text -> res text) (d : vars) : scope :=
  mkScope (fun k => match dget d k with Some v => Ok v | None => Err KeyError end) whole conv.

(** the key of "%(key)": up to the parenthesis that closes it *)
Fixpoint take_key (depth : nat) (s : text) : option (text * text) :=
  match s with
  | [] => None
  | c :: s' =>
      if N.eqb c c_rpar then
        match depth with
        | 0 => Some ([], s')
        | S d => option_map (fun '(k, r) => (c :: k, r)) (take_key d s')
        end
      else option_map (fun '(k, r) => (c :: k, r)) (take_key (if N.eqb c c_lpar then S depth else depth) s')
  end.
Fixpoint span (f : N -> bool) (s : text) : text * text :=
  match s with
  | c :: s' => if f c then let '(a, b) := span f s' in (c :: a, b) else ([], s)
  | [] => ([], [])
  end.
Definition is_flag (c : N) : bool := mem c (txt "-+ #0").
Definition is_digit (c : N) : bool := ((48 <=? c) && (c <=? 57))%N.
Definition is_lenmod (c : N) : bool := mem c (txt "hlL").
(** "*" or digits *)
Definition take_width (s : text) : text * text :=
  match s with
  | c :: s' => if N.eqb c c_star then ([c], s') else span is_digit s
  | [] => ([], [])
  end.
(** flags, width, precision, length modifier *)
Definition take_spec (s : text) : text * text :=
  let '(a, s1) := span is_flag s in
  let '(b, s2) := take_width s1 in
  let '(p, s3) := match s2 with
                  | c :: r => if N.eqb c c_dot then let '(d, r') := take_width r in (c :: d, r') else ([], s2)
                  | [] => ([], []) end in
  match s3 with
  | c :: r => if is_lenmod c then (a ++ b ++ p ++ [c], r) else (a ++ b ++ p, s3)
  | [] => (a ++ b ++ p, [])
  end.
Definition conv_known (c : N) : bool := mem c (txt "sraiduxXoeEfFgGc").

(** The loop.  [cur] is the value a conversion formats (the whole scope, or the
    value of the last key), [have] whether it has not been used yet.
    Simplification: a "*" width is always an error (it needs an int argument
    and then another one); the fuel is the length of the string. *)
Fixpoint pformat (fuel : nat) (sc : scope) (cur : text) (have : bool) (s : text) : res text :=
  match fuel with
  | 0 => Ok []
  | S fuel' =>
      match s with
      | [] => Ok []
      | c :: s0 =>
          if negb (N.eqb c c_percent) then
            let* r := pformat fuel' sc cur have s0 in Ok (c :: r)
          else
            let* q := match s0 with
                      | c1 :: s1 =>
                          if N.eqb c1 c_lpar then
                            match take_key 0 s1 with
                            | None => Err ValueError
                            | Some (k, rest) => let* v := sc_get sc k in Ok (v, true, rest)
                            end
                          else Ok (cur, have, s0)
                      | [] => Ok (cur, have, s0)
                      end in
            let '(cur1, have1, s1) := q in
            let '(spec, s2) := take_spec s1 in
            if mem c_star spec then Err TypeError else
            match s2 with
            | [] => Err ValueError                         (* incomplete format *)
            | t :: s3 =>
                if N.eqb t c_percent then
                  let* r := pformat fuel' sc cur1 have1 s3 in Ok (c_percent :: r)
                else if negb have1 then Err TypeError      (* not enough arguments *)
                else
                  let* v := (if N.eqb t c_s && match spec with [] => true | _ => false end then Ok cur1
                             else if conv_known t then sc_conv sc spec t cur1
                             else Err ValueError) in       (* unsupported format character *)
                  let* r := pformat fuel' sc cur1 false s3 in Ok (v ++ r)
            end
      end
  end.
Definition percent (sc : scope) (s : text) : res text := pformat (List.length s) sc (sc_whole sc) true s.

(** ** fnmatch.fnmatch on posix (glob.glob uses fnmatch.filter) *)
(** The body of a "[...]": up to the closing bracket; a leading "!" and a
    leading "]" do not close it.  [None]: no closing bracket. *)
Fixpoint upto_rbr (s : text) : option (text * text) :=
  match s with
  | [] => None
  | c :: s' => if N.eqb c c_rbr then Some ([], s') else option_map (fun '(a, b) => (c :: a, b)) (upto_rbr s')
  end.
Definition take_class (s : text) : option (bool * text * text) :=
  let '(neg, s1) := match s with c :: s' => if N.eqb c c_bang then (true, s') else (false, s) | [] => (false, []) end in
  match s1 with
  | c :: s2 =>
      if N.eqb c c_rbr then option_map (fun '(a, b) => (neg, c :: a, b)) (upto_rbr s2)
      else option_map (fun '(a, b) => (neg, a, b)) (upto_rbr s1)
  | [] => None
  end.
(** Members of a class: ranges "a-z" and single characters, left to right.
    Simplification: fnmatch.translate's special treatment of overlapping and
    empty ranges is only modelled as far as an empty range has no members. *)
Fixpoint in_class (body : text) (x : N) : bool :=
  match body with
  | [] => false
  | a :: b1 =>
      match b1 with
      | d :: z :: r => if N.eqb d c_dash then ((a <=? x) && (x <=? z))%N || in_class r x
                       else N.eqb a x || in_class b1 x
      | _ => N.eqb a x || in_class b1 x
      end
  end.
Fixpoint fnmatch (fuel : nat) (pat name : text) : bool :=
  match fuel with
  | 0 => false
  | S f =>
      match pat with
      | [] => match name with [] => true | _ => false end
      | p :: pat' =>
          if N.eqb p c_star then
            fnmatch f pat' name || match name with _ :: name' => fnmatch f pat name' | [] => false end
          else
            match name with
            | [] => false
            | x :: name' =>
                if N.eqb p c_quest then fnmatch f pat' name'
                else if N.eqb p c_lbr then
                  match take_class pat' with
                  | Some (neg, body, rest) => xorb neg (in_class body x) && fnmatch f rest name'
                  | None => N.eqb x c_lbr && fnmatch f pat' name'
                  end
                else N.eqb p x && fnmatch f pat' name'
            end
      end
  end.
Definition fnm (pat name : text) : bool := fnmatch (S (List.length pat + List.length name)) pat name.

(** ** glob.glob over a tree of files.  Simplification: no symbolic links, no
    unreadable directories, the tree does not change during the call. *)
Inductive node := NFile | NDir (entries : list (text * node)).
Fixpoint entry (es : list (text * node)) (n : text) : option node :=
  match es with
  | [] => None
  | (m, x) :: es' => if text_eqb n m then Some x else entry es' n
  end.
Fixpoint node_at (t : node) (names : list text) : option node :=
  match names with
  | [] => Some t
  | n :: ns => match t with
               | NFile => None
               | NDir es => match entry es n with Some x => node_at x ns | None => None end
               end
  end.
Definition listdir (t : node) (names : list text) : list (text * node) :=
  match node_at t names with Some (NDir es) => es | _ => [] end.
Definition is_ndir (x : node) : bool := match x with NDir _ => true | NFile => false end.
(** glob.has_magic: search for [*?[] *)
Definition has_magic (s : text) : bool := mem c_star s || mem c_quest s || mem c_lbr s.
Definition hidden (s : text) : bool := match s with c :: _ => N.eqb c c_dot | [] => false end.
(** glob._glob1, glob._glob0 *)
Definition glob1 (t : node) (dir : list text) (pat : text) (dironly : bool) : list text :=
  map fst (filter (fun '(n, x) => (hidden pat || negb (hidden n)) && (negb dironly || is_ndir x) && fnm pat n) (listdir t dir)).
Definition glob0 (t : node) (dir : list text) (base : text) : list text :=
  match node_at t (dir ++ [base]) with Some _ => [base] | None => [] end.
(** glob._iglob on the components of an absolute normal path, last component
    first: dirname is the rest of the list.  The root is "dirname" of a one
    component path. *)
Fixpoint iglob (t : node) (rcomps : list text) (dironly : bool) : list (list text) :=
  match rcomps with
  | [] => [[]]
  | base :: rdir =>
      if negb (existsb has_magic rcomps) then
        match node_at t (rev rcomps) with Some _ => [rev rcomps] | None => [] end
      else
        let dirs := if existsb has_magic rdir then iglob t rdir true else [rev rdir] in
        flat_map (fun d => map (fun n => d ++ [n])
                    (if has_magic base then glob1 t d base dironly else glob0 t d base)) dirs
  end.
(** Patterns reaching glob.glob are results of _expand_path: one or two slashes
    and components (see PathProofs.v). *)
Definition nonempty_pieces (p : text) : list text := filter (fun s => negb (text_eqb s [])) (split_on c_slash p).
Definition glob_tree (t : node) (p : text) : list text :=
  map (fun names => repeat c_slash (initial_slashes p) ++ join_with [c_slash] names)
      (iglob t (rev (nonempty_pieces p)) false).

(** ** environ.py:77-94 *)
(** environ.py:90-93 *)
Definition relativise (cwd p : text) : text :=
  if startswith p (cwd ++ [c_slash]) then [c_dot; c_slash] ++ skipn (List.length (cwd ++ [c_slash])) p else p.
Definition glob_step (w : world) (cwd : text) (arg : text) : list text :=
  if negb (mem c_star arg) && negb (mem c_quest arg) && negb (mem c_lbr arg) then [arg]
  else match m_glob (w_m w) (expand_path w cwd arg) with
       | [] => [arg]
       | res => if text_eqb cwd [c_slash] then res else map (relativise cwd) res
       end.
(** for a str argument; R objects and others are handled in CommandModel.v *)
Definition expand_str (w : world) (cwd : text) (sc : scope) (arg : text) : res (list text) :=
  let* a := percent sc arg in
  Ok (glob_step w cwd (expanduser (m_home (w_m w)) a)).
