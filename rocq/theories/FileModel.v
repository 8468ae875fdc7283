(** Files written through redirections: what Redirect.open (/repo/pieshell/redir.py:89-98)
    with the flags of a Redirect (redir.py:66-83) does to file contents. *)
From Verif Require Import Py RedirModel.

(** POSIX part, no /repo code: contents of files, open file descriptions. *)
Notation bytes := (list N) (only parsing).
Definition fs := path -> option bytes.
Definition path_eqb (a b : path) : bool :=
  match a, b with PName s, PName t => String.eqb s t | PTemp i, PTemp j => Nat.eqb i j | _, _ => false end.
Definition fset (f : fs) (p : path) (c : bytes) : fs := fun q => if path_eqb q p then Some c else f q.
Record desc := mkD { d_path : path; d_off : nat; d_append : bool; d_writable : bool }.
Definition has (flag bit : N) : bool := negb (N.land flag bit =? 0)%N.
(** open(2) *)
Definition sys_open (f : fs) (p : path) (flag : N) : fs * res desc :=
  let writable := has flag O_WRONLY || has flag O_RDWR in
  let d := mkD p 0 (has flag O_APPEND) writable in
  match f p with
  | Some c => (if has flag O_TRUNC && writable then fset f p [] else f, Ok d)
  | None => if has flag O_CREAT then (fset f p [], Ok d) else (f, Err FileNotFoundError)
  end.
(** Bytes [data] placed at position [pos] of [c]; a gap reads as zeros. *)
Definition overwrite (c : bytes) (pos : nat) (data : bytes) : bytes :=
  firstn pos c ++ repeat 0%N (pos - List.length c) ++ data ++ skipn (pos + List.length data) c.
(** write(2), complete *)
Definition sys_write (f : fs) (d : desc) (data : bytes) : fs * res desc :=
  if negb (d_writable d) then (f, Err (OSError EBADF))
  else match f (d_path d) with
       | None => (f, Ok d)
       | Some c => let pos := if d_append d then List.length c else d_off d in
                   (fset f (d_path d) (overwrite c pos data), Ok (mkD (d_path d) (pos + List.length data) (d_append d) (d_writable d)))
       end.

(** redir.py:89-98 Redirect.open for a path source: os.open(source, flag, mode). *)
Definition redirect_open (f : fs) (r : redirect) : fs * res desc :=
  match r_source r with SPath p => sys_open f p (r_flag r) | _ => (f, Err TypeError) end.
(** base.py:90-97, 115-132: `cmd | "path"` and `cmd > "path"` make the Redirect
    ("stdout", path); the flags are the defaults of redir.py:66-70. *)
Definition to_file (p : path) : res redirect := new_redirect (FdName "stdout") (SPath p) None default_mode None false.

(** Processes writing: each opens its redirection once when it starts (in the
    child, redir.py:104-110) and writes; any interleaving. *)
Inductive fev := FOpen (i : nat) | FWrite (i : nat) (data : bytes).
Record fstate := mkF { f_fs : fs; f_desc : nat -> option desc }.
Definition put_desc (s : fstate) (f : fs) (i : nat) (d : desc) : fstate := mkF f (fun j => if Nat.eqb j i then Some d else f_desc s j).
Definition fstep (r : redirect) (s : fstate) (e : fev) : option fstate :=
  match e with
  | FOpen i => match f_desc s i with
               | Some _ => None
               | None => match redirect_open (f_fs s) r with (f, Ok d) => Some (put_desc s f i d) | (_, Err _) => None end
               end
  | FWrite i data => match f_desc s i with
                     | None => None
                     | Some d => match sys_write (f_fs s) d data with (f, Ok d') => Some (put_desc s f i d') | (_, Err _) => None end
                     end
  end.
Fixpoint frun (r : redirect) (s : fstate) (es : list fev) : option fstate :=
  match es with [] => Some s | e :: es' => match fstep r s e with Some s' => frun r s' es' | None => None end end.
Definition fstart (f : fs) : fstate := mkF f (fun _ => None).
