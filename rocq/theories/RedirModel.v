(** Model of /repo/pieshell/redir.py, the value level part: Redirect and
    Redirects without system calls. *)
From Verif Require Import Py.

(** File names.  A temporary file created by [tempfile.mkstemp] gets a fresh
    symbolic name. *)
Inductive path := PName (s : string) | PTemp (k : nat).

(** redir.py:53-58 (docstring): what a redirect may point to.  [SNone] is the
    python value [None], used by [register] as "remove" (redir.py:177).
    Simplification: [bytes] and [pathlib] paths are not distinguished from
    [str] ones.  [SObj] is any other object that ends up as a source: a
    TMP(path=...) instance or a command object (os.open raises TypeError). *)
Inductive source :=
| SNone | SInt (n : nat) | SPath (p : path) | SPIPE | STMP | SSTRING
| SObj.

(** redir.py:61,127,132: the [pipe] attribute: the other end of a pipe, or a
    TMP(path=...) / STRING(path=...) instance. *)
Inductive pipeend := PFd (n : nat) | PTmp (k : nat) | PString (k : nat).

(** redir.py:78-83: the attributes of a Redirect object. *)
Record redirect := mkRedirect {
  r_fd : nat; r_source : source; r_flag : N; r_mode : N;
  r_pipe : option pipeend; r_borrowed : bool }.

(** os.O_* on Linux. *)
Definition O_RDONLY : N := 0.
Definition O_WRONLY : N := 1.
Definition O_RDWR : N := 2.
Definition O_CREAT : N := 64.
Definition O_TRUNC : N := 512.
Definition O_APPEND : N := 1024.

(** redir.py:74: the [fd] argument is an int or a name. *)
Inductive fdspec := FdInt (n : nat) | FdName (s : string).

(** redir.py:64 fd_names, looked up at redir.py:75 (KeyError when unknown). *)
Definition fd_names : dict string nat :=
  [("stdin"%string, 0); ("stdout"%string, 1); ("stderr"%string, 2)].

(** redir.py:66-70 fd_flags.  Note that no O_TRUNC is present. *)
Definition fd_flags : dict nat N :=
  [(0, O_RDONLY); (1, N.lor O_WRONLY O_CREAT); (2, N.lor O_WRONLY O_CREAT)].

(** Default mode 0o777 (redir.py:71). *)
Definition default_mode : N := 511.

(** redir.py:71-83 Redirect.__init__ (the form that does not copy another
    Redirect; the copying form, redir.py:72-73, is the identity on values). *)
Definition new_redirect (fd : fdspec) (src : source) (flag : option N)
    (mode : N) (pipe : option pipeend) (borrowed : bool) : res redirect :=
  let* n := match fd with
            | FdInt n => Ok n
            | FdName s => match dget fd_names s with Some n => Ok n | None => Err KeyError end
            end in
  let* fl := match flag with
             | Some f => Ok f
             | None => match dget fd_flags n with Some f => Ok f | None => Err KeyError end
             end in
  Ok (mkRedirect n src fl mode pipe borrowed).

(** redir.py:84-85 Redirect.borrow *)
Definition borrow1 (r : redirect) : redirect :=
  mkRedirect (r_fd r) (r_source r) (r_flag r) (r_mode r) (r_pipe r) true.

(** redir.py:158-160: a Redirects object is a dict from descriptor to
    Redirect.  Simplification: objects are values.  This is faithful because
    every Redirects constructor copies the Redirect objects it is given
    (redir.py:164,166), so no Redirect is shared between two Redirects. *)
Definition redirects := dict nat redirect.

(** redir.py:170-181 Redirects.register with a Redirect argument. *)
Definition register (rs : redirects) (r : redirect) : res redirects :=
  match r_source r with
  | SNone => if dmem rs (r_fd r) then Ok (ddel rs (r_fd r)) else Err KeyError
  | _ => Ok (dset rs (r_fd r) r)
  end.

(** redir.py:171-173 and 162-164: registering all redirects of another object,
    in its iteration order. *)
Fixpoint register_list (rs : redirects) (l : list redirect) : res redirects :=
  match l with
  | [] => Ok rs
  | r :: l' => let* rs' := register rs r in register_list rs' l'
  end.
Definition register_all (rs other : redirects) : res redirects :=
  register_list rs (dvals other).

(** redir.py:159-166 Redirects.__init__( *redirects ): each item is a Redirects
    or a Redirect. *)
Inductive ritem := IRedirects (rs : redirects) | IRedirect (r : redirect).
Fixpoint new_redirects_from (rs : redirects) (items : list ritem) : res redirects :=
  match items with
  | [] => Ok rs
  | it :: items' =>
      let* rs' := match it with
                  | IRedirects o => register_all rs o
                  | IRedirect r => register rs r
                  end in
      new_redirects_from rs' items'
  end.
Definition new_redirects (items : list ritem) : res redirects := new_redirects_from [] items.

(** redir.py:167-169 Redirects.borrow *)
Definition borrow (rs : redirects) : redirects :=
  map (fun kr => (fst kr, borrow1 (snd kr))) rs.

(** redir.py:182-184 Redirects.redirect( *arg, **kw ) *)
Definition redirect_op (rs : redirects) (fd : fdspec) (src : source) (flag : option N) : res redirects :=
  let* r := new_redirect fd src flag default_mode None false in register rs r.

(** redir.py:185-186 Redirects.merge *)
Definition merge (a b : redirects) : res redirects :=
  new_redirects [IRedirects a; IRedirects b].

(** redir.py:187-193 Redirects.find_free_fd *)
Definition source_ints (rs : redirects) : list nat :=
  flat_map (fun r => match r_source r with SInt n => [n] | _ => [] end) (dvals rs).
Definition find_free_fd (rs : redirects) : nat :=
  list_max (map r_fd (dvals rs) ++ source_ints rs ++ [2]) + 1.

(** redir.py:228-234 Redirects.__getattr__ for stdin / stdout / stderr. *)
Definition get_std (rs : redirects) (name : string) : res redirect :=
  match dget fd_names name with
  | None => Err AttributeError
  | Some n => match dget rs n with Some r => Ok r | None => Err AttributeError end
  end.

(** The default redirects of an environment, environ.py:55-58. *)
Definition default_redirects : res redirects :=
  let* a := new_redirect (FdInt 0) (SInt 0) None default_mode None true in
  let* b := new_redirect (FdInt 1) (SInt 1) None default_mode None true in
  let* c := new_redirect (FdInt 2) SSTRING None default_mode None false in
  register_list [] [a; b; c].

Arguments register : simpl never.
Arguments register_all : simpl never.
Arguments new_redirects : simpl never.
Arguments merge : simpl never.
Arguments find_free_fd : simpl never.

(** A redirect set as the code can build it: one entry per descriptor, filed
    under its own descriptor, never with source None. *)
Definition wf_redirects (rs : redirects) : Prop :=
  NoDup (dkeys rs) /\
  Forall (fun kr => r_fd (snd kr) = fst kr /\ r_source (snd kr) <> SNone) rs.
