(** Model of the process tree: PstreeProcess, PstreeLogin and PstreeLogins of
    /repo/pieshell/ps.py:33-140 and TreeGroup (tree.py:4-25) for any kind of children
    whose _getkey may raise.  [slug] is slugify.slugify(_, separator="_"). *)
From Verif Require Import Py PathModel TreeModel.

(** ** tree.py:4-25 for children of type A.  [key a level] is a._getkey(level) after
    slugify's own check of its type, [ident a] is a._getkey(None). *)
Section Gen.
  Context {A : Type} (slug : text -> text) (key : A -> nat -> res text) (ident : A -> text).
  Inductive gtree := GLeaf (a : A) | GGroup (children : dict text gtree).
  (** tree.py:8-11 *)
  Definition gkey (a : A) (level : nat) : res text :=
    let* t := key a level in
    let k := slug t in
    Ok (match k with c :: _ => if is_digit c then 110%N :: k else k | [] => k end).
  (** tree.py:7,12-13 *)
  Definition gadd (level : nat) (procs : dict text (dict text A)) (a : A) : res (dict text (dict text A)) :=
    let* k := gkey a level in
    let procs := if dmem procs k then procs else dset procs k [] in
    match dget procs k with
    | Some inner => Ok (dset procs k (dset inner (ident a) a))
    | None => Ok procs
    end.
  Fixpoint gcollect (level : nat) (procs : dict text (dict text A)) (l : list A) : res (dict text (dict text A)) :=
    match l with
    | [] => Ok procs
    | a :: l' => let* procs' := gadd level procs a in gcollect level procs' l'
    end.
  (** tree.py:14-19; [bld] builds the group of the next level *)
  Fixpoint gchildren (bld : list A -> res gtree) (procs : dict text (dict text A)) : res (dict text gtree) :=
    match procs with
    | [] => Ok []
    | (k, value) :: rest =>
        let* t := match dvals value with [a] => Ok (GLeaf a) | l => bld l end in
        let* d := gchildren bld rest in
        Ok ((k, t) :: d)
    end.
  (** tree.py:5-19 TreeGroup.__init__; [depth] bounds python's recursion *)
  Fixpoint gbuild (depth level : nat) (l : list A) : res gtree :=
    match depth with
    | O => Err RecursionError
    | S d => let* procs := gcollect level [] l in
             let* cs := gchildren (gbuild d (S level)) procs in
             Ok (GGroup cs)
    end.
  (** tree.py:20-21 __dir__ *)
  Definition gdir (t : gtree) : list text := match t with GLeaf _ => [] | GGroup cs => dkeys cs end.
  (** tree.py:22-25 __getattr__, after the attribute [children] of the object itself *)
  Inductive gattr := GOwn | GChild (t : gtree) | GMissing.
  Definition group_get (t : gtree) (k : text) : gattr :=
    match t with
    | GLeaf _ => GMissing
    | GGroup cs => if text_eqb k (txt "children") then GOwn else match dget cs k with Some t' => GChild t' | None => GMissing end
    end.
End Gen.
Arguments gtree : clear implicits.
Arguments gattr : clear implicits.

(** What psutil answers: a value, AccessDenied, or another exception (the process has gone
    or is a zombie). *)
Inductive asked (A : Type) := Said (a : A) | Denied | Gone.
Arguments Said {A}. Arguments Denied {A}. Arguments Gone {A}.
Record psproc := mkPs { ps_pid : nat; ps_exe : asked text; ps_cmdline : asked (list text) }.

(** ps.py:46-68 _getkey("pid"), with ps.py:64-65 *)
Definition pid_key (p : psproc) : text := txt "pid_" ++ id_text (ps_pid p).
(** ps.py:46-68 _getkey(2): " ".join(cmdline), or the next key if it may not be read *)
Definition cmd_key (p : psproc) : res text :=
  match ps_cmdline p with
  | Said l => Ok (join_with [32%N] l)
  | Denied => Ok (pid_key p)
  | Gone => Err PlainException
  end.
(** _getkey(1): the executable *)
Definition exe_key (p : psproc) : res text :=
  match ps_exe p with
  | Said t => Ok t
  | Denied => cmd_key p
  | Gone => Err PlainException
  end.
(** _getkey(0): its last part (line 63); lines 58-61: the next key if it may not be read,
    which is a string by then *)
Definition name_key (p : psproc) : res text :=
  match ps_exe p with
  | Said t => Ok (List.last (split_on c_slash t) [])
  | Denied => exe_key p
  | Gone => Err PlainException
  end.
(** ps.py:34,46-51 _getkey(level); line 51: self._keys[level] *)
Definition ps_key (p : psproc) (level : nat) : res text :=
  match level with
  | 0 => name_key p
  | 1 => exe_key p
  | 2 => cmd_key p
  | 3 => Ok (pid_key p)
  | _ => Err IndexError
  end.
(** ps.py:70-74 _children, with python's recursion limit [depth] *)
Definition ps_children (slug : text -> text) (depth : nat) (l : list psproc) : res (gtree psproc) := gbuild slug ps_key pid_key depth 0 l.
(** ps.py:33-90 the attributes of the object; __getattr__ (86-91): those of its children,
    and if that raises those of the psutil object ([info]: its names) *)
Definition own_names : list text := map txt ["INFO"; "PARENT"; "GROUP"; "SESS"]%string.
Inductive pattr := POwn | PChild (t : gtree psproc) | PTable | PInfo | PMissing.
Definition proc_get (info : list text) (t : res (gtree psproc)) (k : text) : pattr :=
  let from_info := if existsb (text_eqb k) info then PInfo else PMissing in
  if existsb (text_eqb k) own_names then POwn
  else match t with
       | Err _ => from_info
       | Ok t => match group_get t k with GOwn => PTable | GChild c => PChild c | GMissing => from_info end
       end.
(** ps.py:78-83 GROUP and SESS: self.pid is looked up like any other name (it is not set
    if there is psutil); os.getpgid of something else than a number raises TypeError *)
Definition group_arg (info : list text) (t : res (gtree psproc)) (p : psproc) : res nat :=
  match proc_get info t (txt "pid") with
  | PInfo => Ok (ps_pid p)
  | PMissing => Err AttributeError
  | _ => Err TypeError
  end.

(** ps.py:103-106 a login: name and host as psutil.users() tells them, and its process;
    None: there is none any more, psutil.Process(pid) raises *)
Record login := mkLogin { l_name : text; l_host : option text; l_process : psproc }.
Record utmp := mkU { u_name : text; u_host : option text; u_process : option psproc }.
(** ps.py:117-122 _getkey; slugify raises TypeError for None (tree.py:9) *)
Definition login_key (l : login) (level : nat) : res text :=
  match level with
  | 0 => Ok (l_name l)
  | 1 => match l_host l with Some h => Ok h | None => Err TypeError end
  | S (S n) => ps_key (l_process l) n
  end.
Definition login_ident (l : login) : text := pid_key (l_process l).
(** ps.py:127-130 PstreeLogins._children *)
Fixpoint logins_of (us : list utmp) : res (list login) :=
  match us with
  | [] => Ok []
  | u :: us' => match u_process u with
                | None => Err PlainException
                | Some p => let* ls := logins_of us' in Ok (mkLogin (u_name u) (u_host u) p :: ls)
                end
  end.
Definition users_tree (slug : text -> text) (depth : nat) (us : list utmp) : res (gtree login) :=
  let* ls := logins_of us in gbuild slug login_key login_ident depth 0 ls.
