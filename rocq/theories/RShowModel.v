(** How redirects are printed: flags_to_string (/repo/pieshell/redir.py:45-48),
    Redirect.__repr__ (redir.py:136-156), Redirects.__repr__ (redir.py:246-248),
    SpecialRedirect.__repr__ (redir.py:35-39). *)
From Coq Require Import Decimal DecimalString.
From Verif Require Import Py RedirModel StatusModel.
Local Open Scope string_scope.

(** sep.join(l) (CPython) *)
Fixpoint joined (sep : string) (l : list string) : string :=
  match l with [] => "" | [x] => x | x :: r => x ++ sep ++ joined sep r end.
(** redir.py:45-48.  [tab]: the names in dir(os) that start with O_, without the O_, in
    order, each with its value. *)
Definition flags_to_string (tab : list (string * N)) (flags : N) : string :=
  joined "," (map fst (filter (fun e => negb (N.eqb (N.land flags (snd e)) 0)) tab)).
(** redir.py:150 "%s" % self.source.  The __metaclass__ of redir.py:21-25 is python 2 and has
    no effect in python 3, so str(PIPE) is the one of any class.  [tmp]: the names
    tempfile.mkstemp gave.  Simplification: some text for objects of other types. *)
Definition show_path (tmp : nat -> string) (p : path) : string := match p with PName s => s | PTemp k => tmp k end.
Definition show_source (tmp : nat -> string) (s : source) : string :=
  match s with
  | SNone => "None" | SInt n => num (N.of_nat n) | SPath p => show_path tmp p
  | SPIPE => "<class 'pieshell.redir.PIPE'>" | STMP => "<class 'pieshell.redir.TMP'>" | SSTRING => "<class 'pieshell.redir.STRING'>"
  | SObj => "<object>"
  end.
(** redir.py:154, redir.py:35-39: "%s" % self.pipe *)
Definition show_pipe (tmp : nat -> string) (p : pipeend) : string :=
  match p with
  | PFd n => num (N.of_nat n)
  | PTmp k => "<class 'pieshell.redir.TMP'>(path=" ++ tmp k ++ ")"
  | PString k => "<class 'pieshell.redir.STRING'>(path=" ++ tmp k ++ ")"
  end.
(** redir.py:136-145 *)
Definition show_flagmode (tab : list (string * N)) (r : redirect) : string :=
  let fl := if match dget fd_flags (r_fd r) with Some f => N.eqb (r_flag r) f | None => false end then [] else [flags_to_string tab (r_flag r)] in
  let mo := if N.eqb (r_mode r) default_mode then [] else ["m=" ++ num (r_mode r)] in
  match List.app fl mo with [] => "" | l => "[" ++ joined "," l ++ "]" end.
(** redir.py:146-156 *)
Definition show (tmp : nat -> string) (tab : list (string * N)) (r : redirect) : string :=
  let arrow := if negb (N.eqb (N.land (r_flag r) O_WRONLY) 0) then "-" ++ show_flagmode tab r ++ "->" else "<-" ++ show_flagmode tab r ++ "-" in
  let arrow := num (N.of_nat (r_fd r)) ++ " " ++ arrow ++ " " ++ show_source tmp (r_source r) in
  let arrow := if r_borrowed r then "(" ++ arrow ++ ")" else arrow in
  joined " " (arrow :: match r_pipe r with Some p => ["pipe=" ++ show_pipe tmp p] | None => [] end).
(** sorted(..., key = lambda a: a.fd) (CPython: stable) *)
Fixpoint put_in (r : redirect) (l : list redirect) : list redirect :=
  match l with [] => [r] | x :: l' => if Nat.leb (r_fd r) (r_fd x) then r :: l else x :: put_in r l' end.
Definition by_fd (l : list redirect) : list redirect := fold_right put_in [] l.
(** redir.py:246-248 *)
Definition show_all (tmp : nat -> string) (tab : list (string * N)) (rs : redirects) : string :=
  joined ", " (map (show tmp tab) (by_fd (map snd rs))).
