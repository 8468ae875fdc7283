(** Model of installing and executing the configuration at startup:
    EnvScope.execute_startup and _copy_resource
    (/repo/pieshell/environ.py:266-274, 295-304), by any number of processes, with
    crashes and errors at any point.  A file's content is a list of bytes. *)
From Verif Require Import Py.

(** Where a starting pieshell is.  [PWriting off]: the file is open for writing
    and [off] bytes of the default configuration have been written. *)
Inductive pc :=
| PStart
| PMissing                    (* environ.py:298: os.path.exists(conf) was False *)
| PWriting (off : nat)        (* environ.py:273-274 *)
| PInstalled                  (* environ.py:302-304: the else branch *)
| PDone (executed : option (list N))   (* the program executed as configuration, if any *)
| PFailed                     (* an exception left execute_startup *)
| PCrashed.
Record state := mkC { conf : option (list N); procs : list pc }.

(** What may happen.  [AStep i k]: process i goes on (a write writes k+1 bytes);
    [APermission i], [AError i]: its next system call fails with PermissionError
    or another error; [ACrash i]: it is killed; [AUser c]: somebody else creates,
    changes or removes the file. *)
Inductive act := AStart | AStep (i k : nat) | APermission (i : nat) | AError (i : nat) | ACrash (i : nat) | AUser (c : option (list N)).

Section Conf.
  Variable default : list N.   (* resources/default_config.pysh *)
  (** write(2) at an offset: a gap is filled with zeros. *)
  Definition write_at (u : list N) (off : nat) (chunk : list N) : list N :=
    firstn off u ++ repeat 0%N (off - List.length u) ++ chunk ++ skipn (off + List.length chunk) u.
  (** One system call of a process: new content, new place.  Simplification: the
      directory exists or can be made; the resource can be read; the file is not
      removed while it is open. *)
  Definition go (c : option (list N)) (p : pc) (k : nat) : option (list N) * pc :=
    match p with
    | PStart => (c, match c with Some _ => PInstalled | None => PMissing end)
    | PMissing => (Some [], PWriting 0)                         (* open(dst, "wb") creates or truncates *)
    | PWriting off =>
        let chunk := firstn (S k) (skipn off default) in
        match chunk with
        | [] => (c, PInstalled)                                  (* close *)
        | _ => (Some (write_at (match c with Some u => u | None => [] end) off chunk), PWriting (off + List.length chunk))
        end
    | PInstalled => (c, PDone c)                                 (* execute_file(conf) if it exists *)
    | PDone _ | PFailed | PCrashed => (c, p)
    end.
  (** except PermissionError (environ.py:300): the resource is executed.  In the
      else branch nothing is caught: the exception leaves execute_startup. *)
  Definition permission (p : pc) : pc :=
    match p with PMissing | PWriting _ => PDone (Some default) | PInstalled => PFailed | _ => p end.
  Definition error (p : pc) : pc := match p with PMissing | PWriting _ | PInstalled => PFailed | _ => p end.
  Definition crash (p : pc) : pc := match p with PDone _ | PFailed => p | _ => PCrashed end.
  Fixpoint at_ (l : list pc) (i : nat) (p : pc) : list pc :=
    match l, i with [], _ => [] | _ :: r, 0 => p :: r | x :: r, S j => x :: at_ r j p end.
  Definition step (s : state) (a : act) : state :=
    match a with
    | AStart => mkC (conf s) (procs s ++ [PStart])
    | AStep i k => let '(c, p) := go (conf s) (nth i (procs s) PCrashed) k in mkC c (at_ (procs s) i p)
    | APermission i => mkC (conf s) (at_ (procs s) i (permission (nth i (procs s) PCrashed)))
    | AError i => mkC (conf s) (at_ (procs s) i (error (nth i (procs s) PCrashed)))
    | ACrash i => mkC (conf s) (at_ (procs s) i (crash (nth i (procs s) PCrashed)))
    | AUser c => mkC c (procs s)
    end.
  Definition steps (s : state) (l : list act) : state := fold_left step l s.
End Conf.
