(** How a shell reads a line of |, < and >: pipes connect commands, and a redirect
    belongs to the command it is written after. *)
From Verif Require Import Py RedirModel RunModel OperModel.

Definition to_file (fd : nat) (f : string) : redirects :=
  [(fd, mkRedirect fd (SPath (PName f)) (if Nat.eqb fd 0 then O_RDONLY else N.lor O_WRONLY O_CREAT) default_mode None false)].
Definition piped_to (before : option pl) (p : pl) : pl := match before with None => p | Some a => PPipe a p end.
Inductive shell_reads : option pl -> pl -> list (oper * obj) -> pl -> Prop :=
| sh_end before p : shell_reads before p [] (piped_to before p)
| sh_bar before p q l r : shell_reads (Some (piped_to before p)) q l r -> shell_reads before p ((Bar, OPl q) :: l) r
| sh_in before p f l r : shell_reads before (PRedir p (to_file 0 f)) l r -> shell_reads before p ((Cmp Less, OStr f) :: l) r
| sh_out before p f l r : shell_reads before (PRedir p (to_file 1 f)) l r -> shell_reads before p ((Cmp More, OStr f) :: l) r.
