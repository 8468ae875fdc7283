(** When two ways of writing a pipeline mean the same. *)
From Verif Require Import Py RedirModel RedirSpec Os PerformModel PerformSpec RunModel RunSpec RunTopSpec.

(** Two started items are connected alike: same words, same files behind
    corresponding /dev/fd arguments, same files on all other descriptors. *)
Definition arg_alike (see1 see2 : nat -> option ofd) (a b : aword) : Prop :=
  match a, b with
  | Word x, Word y => x = y
  | DevFd m, DevFd n => see1 m = see2 n /\ see1 m <> None
  | _, _ => False
  end.
Definition alike (L : limits) (logfd maxfd : nat) (shell1 shell2 : tab) (x y : item) : Prop :=
  match x, y with
  | IProc rs1 t1 argv1, IProc rs2 t2 argv2 =>
      room L logfd rs1 t1 -> room L logfd rs2 t2 -> find_free_fd rs1 < maxfd -> find_free_fd rs2 < maxfd ->
      let see1 := program_fd L logfd maxfd rs1 t1 in
      let see2 := program_fd L logfd maxfd rs2 t2 in
      Forall2 (arg_alike see1 see2) argv1 argv2 /\
      (forall n, n < maxfd -> n <> logfd -> ~ In n (arg_numbers argv1) -> ~ In n (arg_numbers argv2) -> see1 n = see2 n)
  | IFun in1 out1 _, IFun in2 out2 _ =>
      match in1, in2 with
      | Some a, Some b => refers shell1 a = refers shell2 b /\ refers shell1 a <> None
      | None, None => True
      | _, _ => False
      end /\ refers shell1 out1 = refers shell2 out2
  | _, _ => False
  end.
(** Two ways of writing a pipeline start the same processes: whenever both
    start, the started items are alike, and so is the pipe handed to the
    caller. *)
Definition same_pipeline (L : limits) (pf : ofd -> bool) (piped : bool) (p q : pl) (s : st) (logfd maxfd : nat) : Prop :=
  match start L pf piped p s, start L pf piped q s with
  | (s1, Ok (r1, its1)), (s2, Ok (r2, its2)) =>
      Forall2 (alike L logfd maxfd (s_tab s1) (s_tab s2)) its1 its2 /\
      (piped = true -> exists x1 x2 k, caller_fds r1 = [x1] /\ caller_fds r2 = [x2] /\
         refers (s_tab s1) x1 = Some (OPipeR k) /\ refers (s_tab s2) x2 = Some (OPipeR k))
  | (_, Err e1), (_, Err e2) => errs e1 /\ errs e2
  | (_, Err e), _ | _, (_, Err e) => errs e
  end.

(** The redirects of a pipeline a | b that concern its first command: all but
    those of stdout; and its last: all but those of stdin. *)
Definition for_first (crs : redirects) : redirects := filter (fun kr => negb (Nat.eqb (r_fd (snd kr)) 1)) crs.
Definition for_last (crs : redirects) : redirects := filter (fun kr => negb (Nat.eqb (r_fd (snd kr)) 0)) crs.
