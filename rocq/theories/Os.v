(** Descriptor tables and the system calls used by redir.py and
    utils/pipe.py.  Nothing here models /repo code: it is the POSIX contract
    the code is run against (lowest free descriptor, EBADF on closed
    descriptors, dup2 replaces its target, RLIMIT_NOFILE). *)
From Verif Require Import Py RedirModel.

(** Open file descriptions, named by what they are: one that was already open
    when the shell started, the two ends of the k-th pipe, an opened file, the
    k-th temporary file. *)
Inductive ofd :=
| OInit (n : nat) | OPipeR (k : nat) | OPipeW (k : nat)
| OFile (p : path) (flag : N) | OTmp (k : nat).

(** A descriptor: an open file description and the close-on-exec flag. *)
Record ent := mkEnt { e_ofd : ofd; e_cloexec : bool }.

(** A descriptor table, indexed by descriptor number. *)
Definition tab := list (option ent).
Definition tget (t : tab) (n : nat) : option ent :=
  match nth_error t n with Some (Some e) => Some e | _ => None end.
Fixpoint tset (t : tab) (n : nat) (v : option ent) : tab :=
  match n, t with
  | 0, [] => [v]
  | 0, _ :: t' => v :: t'
  | S n', [] => None :: tset [] n' v
  | S n', x :: t' => x :: tset t' n' v
  end.
(** The lowest free descriptor. *)
Fixpoint lowest (t : tab) : nat :=
  match t with
  | Some _ :: t' => S (lowest t')
  | _ => 0
  end.

Lemma tget_tset t n v m :
  tget (tset t n v) m = if Nat.eqb m n then v else tget t m.
Proof.
  unfold tget. revert t m. induction n as [|n IH]; intros t m.
  - destruct t as [|x t]; destruct m as [|m]; cbn; try destruct v; try reflexivity.
    + now destruct m.
    + now destruct m.
  - destruct t as [|x t]; destruct m as [|m]; cbn; try reflexivity.
    + rewrite IH. now destruct m.
    + apply IH.
Qed.
Lemma tget_lowest t : tget t (lowest t) = None.
Proof. unfold tget. induction t as [|[e|] t IH]; cbn; auto. Qed.
Lemma lowest_le t n : tget t n = None -> lowest t <= n.
Proof.
  unfold tget. revert n. induction t as [|[e|] t IH]; cbn; intros n H; try lia.
  destruct n as [|n]; cbn in H; [discriminate|]. apply IH in H. lia.
Qed.
Lemma lowest_below t n : n < lowest t -> tget t n <> None.
Proof. intros H E. apply lowest_le in E. lia. Qed.
#[global] Opaque tget tset.

(** The limits and the file system seen by a process: RLIMIT_NOFILE and which
    files can be opened with which flags. *)
Record limits := mkLimits { lim : nat; can_open : path -> N -> bool }.

(** A computation over the descriptor table of one process; the table survives
    an exception. *)
Definition TM (A : Type) := tab -> tab * res A.
Definition tret {A} (a : A) : TM A := fun t => (t, Ok a).
Definition traise {A} (e : exn) : TM A := fun t => (t, Err e).
Definition tbind {A B} (m : TM A) (f : A -> TM B) : TM B :=
  fun t => match m t with (t', Ok a) => f a t' | (t', Err e) => (t', Err e) end.
Notation "'do' x <- m ; f" := (tbind m (fun x => f)) (at level 200, x pattern, m at level 100, f at level 200).
Notation "m ;; f" := (tbind m (fun _ => f)) (at level 100, right associativity).

Section Calls.
  Variable L : limits.
  (** close(2) *)
  Definition os_close (n : nat) : TM unit := fun t =>
    match tget t n with None => (t, Err (OSError EBADF)) | Some _ => (tset t n None, Ok tt) end.
  (** os.dup2(s, d): the duplicate is inheritable (python >= 3.4). *)
  Definition os_dup2 (s d : nat) : TM unit := fun t =>
    match tget t s with
    | None => (t, Err (OSError EBADF))
    | Some e => if d <? lim L then (tset t d (Some (mkEnt (e_ofd e) false)), Ok tt)
                else (t, Err (OSError EBADF))
    end.
  (** Install a description at the lowest free descriptor, close-on-exec
      (python >= 3.4 makes every new descriptor non-inheritable). *)
  Definition os_alloc (o : ofd) : TM nat := fun t =>
    let n := lowest t in
    if n <? lim L then (tset t n (Some (mkEnt o true)), Ok n) else (t, Err (OSError EMFILE)).
  Definition os_open (p : path) (flag : N) : TM nat :=
    if can_open L p flag then os_alloc (OFile p flag) else traise (OSError ENOENT).
  Definition os_dup (s : nat) : TM nat := fun t =>
    match tget t s with
    | None => (t, Err (OSError EBADF))
    | Some e => os_alloc (e_ofd e) t
    end.
End Calls.

(** execve(2): close-on-exec descriptors disappear. *)
Definition exec_tab (t : tab) : tab :=
  map (fun o => match o with Some e => if e_cloexec e then None else Some e | None => None end) t.
