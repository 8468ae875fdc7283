(** Specification of how a pipeline is wired, without descriptor numbers of the
    shell, without borrowing and without closing: it only says which open file
    each descriptor of each process is. *)
From Verif Require Import Py RedirModel Os PerformModel PerformSpec RunModel.

(** What a descriptor should be connected to: an open file, a file to be opened
    by the process itself, a new pipe whose other end goes to the caller, or a
    new temporary file. *)
Inductive want := WOfd (o : ofd) | WPath (p : path) | WPipe | WTmp.
Definition wenv := dict nat (want * N).

(** Pipes and temporary files are numbered in order of creation. *)
Definition is_write (flag : N) : bool := negb (N.eqb (N.land flag O_WRONLY) 0).
Fixpoint make (e : wenv) (np nt : nat) : wenv * nat * nat :=
  match e with
  | [] => ([], np, nt)
  | (k, (w, f)) :: e' =>
      let '(w', np1, nt1) :=
        match w with
        | WPipe => (WOfd (if is_write f then OPipeW np else OPipeR np), S np, nt)
        | WTmp => (WOfd (OTmp nt), np, S nt)
        | _ => (w, np, nt)
        end in
      let '(r, np2, nt2) := make e' np1 nt1 in
      ((k, (w', f)) :: r, np2, nt2)
  end.
(** The number of the pipe created for descriptor [k], if one was asked for. *)
Fixpoint asked (e : wenv) (np k : nat) : option nat :=
  match e with
  | [] => None
  | (k', (w, _)) :: e' =>
      match w with
      | WPipe => if Nat.eqb k k' then Some np else asked e' (S np) k
      | _ => if Nat.eqb k k' then None else asked e' np k
      end
  end.

(** The open file a wish denotes once pipes and temporary files are made. *)
Definition ofd_of (w : want * N) : option ofd :=
  match w with
  | (WOfd o, _) => Some o
  | (WPath p, f) => Some (OFile p f)
  | _ => None
  end.
Definition io_of (e : wenv) (n : nat) : option ofd :=
  match dget e n with Some w => ofd_of w | None => None end.

(** A started leaf: a process with the files on its descriptors and its
    arguments (an argument pipeline shows as the pipe end the process gets), or
    a python function with its input and output files. *)
Inductive warg := WWord (w : string) | WArg (o : ofd).
Inductive leaf :=
| LProc (io : nat -> option ofd) (args : list warg)
| LFun (inp : option ofd) (out : option ofd).

Record wired := mkWired {
  w_leaves : list leaf;      (* in order of RunningPipeline.processes *)
  w_in : option nat;         (* pipe created for stdin on behalf of the caller *)
  w_out : option nat;        (* pipe created for stdout on behalf of the caller *)
  w_np : nat; w_nt : nat }.  (* counters afterwards *)

Definition out_flags : N := N.lor O_WRONLY O_CREAT.
Definition ask_stdout (e : wenv) : wenv := dset e 1 (WPipe, out_flags).
Definition ask_stdin (e : wenv) : wenv := dset e 0 (WPipe, O_RDONLY).
Definition feed_stdin (e : wenv) (k : nat) : wenv := dset e 0 (WOfd (OPipeR k), O_RDONLY).

Definition wish (r : redirect) : want * N :=
  (match r_source r with
   | SPath p => WPath p
   | STMP | SSTRING => WTmp
   | SPIPE => WPipe
   | _ => WTmp
   end, r_flag r).
(** Overriding with the redirects given by the user. *)
Fixpoint override (e : wenv) (l : list redirect) : wenv :=
  match l with
  | [] => e
  | r :: l' => override (dset e (r_fd r) (wish r)) l'
  end.

Definition wire_function (inp : bool) (e : wenv) (np nt : nat) : wired :=
  let '(m, np1, nt1) := make e np nt in
  mkWired [LFun (if inp then io_of m 0 else None) (io_of m 1)]
    (asked e np 0) (asked e np 1) np1 nt1.

Fixpoint wire (p : pl) (e : wenv) (np nt : nat) : wired :=
  match p with
  | PBuiltin => mkWired [] None None np nt
  | PFun inp => wire_function inp e np nt
  | PRedir q crs => wire q (override e (dvals crs)) np nt
  | PPipe a b =>
      let wa := wire a (ask_stdout e) np nt in
      match w_out wa with
      | None => wa
      | Some k =>
          let wb := wire b (feed_stdin e k) (w_np wa) (w_nt wa) in
          mkWired (w_leaves wa ++ w_leaves wb) (w_in wa) (w_out wb) (w_np wb) (w_nt wb)
      end
  | PGroup a b =>
      let wa := wire a e np nt in
      let wb := wire b e (w_np wa) (w_nt wa) in
      mkWired (w_leaves wa ++ w_leaves wb) None None (w_np wb) (w_nt wb)
  | PCmd args =>
      let '(m, np1, nt1) := make e np nt in
      let '(ls, ws, np2, nt2) :=
        (fix wire_args (l : list arg) (np nt : nat) : list leaf * list warg * nat * nat :=
           match l with
           | [] => ([], [], np, nt)
           | AWord w :: l' =>
               let '(ls, ws, np', nt') := wire_args l' np nt in (ls, WWord w :: ws, np', nt')
           | APipeline q :: l' =>
               let wq := wire q (ask_stdout m) np nt in
               let '(ls, ws, np', nt') := wire_args l' (w_np wq) (w_nt wq) in
               (w_leaves wq ++ ls,
                match w_out wq with Some k => WArg (OPipeR k) | None => WWord "" end :: ws, np', nt')
           | AIterator :: l' =>
               let wq := wire_function false (ask_stdout m) np nt in
               let '(ls, ws, np', nt') := wire_args l' (w_np wq) (w_nt wq) in
               (w_leaves wq ++ ls,
                match w_out wq with Some k => WArg (OPipeR k) | None => WWord "" end :: ws, np', nt')
           | AFunction :: l' =>
               let wq := wire_function true (ask_stdin m) np nt in
               let '(ls, ws, np', nt') := wire_args l' (w_np wq) (w_nt wq) in
               (w_leaves wq ++ ls,
                match w_in wq with Some k => WArg (OPipeW k) | None => WWord "" end :: ws, np', nt')
           end) args np1 nt1 in
      mkWired (ls ++ [LProc (io_of m) ws]) (asked e np 0) (asked e np 1) np2 nt2
  end.

(** Pipelines the wiring theorem covers.  [i] tells where stdin comes from:
    inherited or a file, the pipe of the left neighbour, or a pipe asked for by
    the caller; [o] whether stdout goes into a pipe.
    Excluded, and each shown to go wrong in the code (PropsRun.v): a redirect
    that overrides a pipe end, a group whose output is piped, a redirect to an
    existing descriptor number, and builtins that start nothing inside a pipe. *)
Inductive inkind := INone | IPiped | IReq.
Definition redirect_clean (can : path -> N -> bool) (i : inkind) (o : bool) (kr : nat * redirect) : Prop :=
  let r := snd kr in
  (r_fd r = 0 -> i = INone) /\ (r_fd r = 1 -> o = false) /\
  match r_source r with
  | SPath p => r_fd r <= 2 /\ can p (r_flag r) = true
  | STMP | SSTRING => is_write (r_flag r) = true
  | _ => False
  end.
Fixpoint clean (can : path -> N -> bool) (i : inkind) (o : bool) (p : pl) : Prop :=
  match p with
  | PBuiltin => False
  | PFun _ => True
  | PCmd args =>
      (fix clean_args (l : list arg) : Prop :=
         match l with
         | [] => True
         | APipeline q :: l' => clean can INone true q /\ clean_args l'
         | _ :: l' => clean_args l'
         end) args
  | PPipe a b =>
      clean can (match i with IReq => IReq | _ => INone end) true a /\ clean can IPiped o b
  | PGroup a b => i <> IReq /\ o = false /\ clean can INone false a /\ clean can INone false b
  | PRedir q crs => wf_redirects crs /\ Forall (redirect_clean can i o) crs /\ clean can i o q
  end.
