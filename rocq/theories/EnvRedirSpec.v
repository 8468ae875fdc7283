(** What the default redirects of an environment mean, from the history of the session. *)
From Verif Require Import Py RedirModel RedirSpec Os RunModel RunSpec EnvRedirModel.

(** Environments are numbered in the order they are made; a statement can only name
    those that exist. *)
Definition makes (op : envop) : bool := match op with ENew | EWith _ | EDerive _ | EDeriveWith _ _ => true | _ => false end.
Definition names (op : envop) : option nat := match op with EDerive e | EDeriveWith e _ | ESet e _ | EOr e _ | ERor e _ => Some e | _ => None end.
Fixpoint sensible (n : nat) (h : list envop) : Prop :=
  match h with
  | [] => True
  | op :: h' => match names op with Some e => e < n | None => True end /\ sensible (if makes op then S n else n) h'
  end.
(** Whose redirects an environment uses: one derived without redirects of its own uses
    those of the one it was derived from. *)
Definition users (h : list envop) : list nat :=
  fold_left (fun l op => match op with
                         | EDerive e => l ++ [nth e l 0]
                         | ENew | EWith _ | EDeriveWith _ _ => l ++ [List.length l]
                         | _ => l
                         end) h [].
Definition user (h : list envop) (e : nat) : nat := nth e (users h) 0.
(** What it was made with. *)
Definition standard : redirects :=
  [(0, mkRedirect 0 (SInt 0) O_RDONLY default_mode None true); (1, mkRedirect 1 (SInt 1) out_flags default_mode None true);
   (2, mkRedirect 2 SSTRING out_flags default_mode None false)].
Definition made_with (h : list envop) (e : nat) : redirects :=
  match nth_error (filter makes h) e with Some (EWith rs) | Some (EDeriveWith _ rs) => rs | _ => standard end.
(** The redirects registered for environment e, the last one last. *)
Definition settings (h : list envop) (e : nat) : list redirect :=
  flat_map (fun op => match op with ESet e' r => if Nat.eqb (user h e') (user h e) then [r] else [] | _ => [] end) h.
(** Registering; one that is refused changes nothing. *)
Definition plus (rs : redirects) (r : redirect) : redirects := match register rs r with Ok rs' => rs' | Err _ => rs end.

(** What a user may ask an environment for: one of the standard descriptors to be a file
    that can be opened, or a temporary file. *)
Definition ordinary (can : path -> N -> bool) (r : redirect) : Prop :=
  r_fd r <= 2 /\ match r_source r with
                 | SPath p => can p (r_flag r) = true
                 | STMP | SSTRING => is_write (r_flag r) = true
                 | _ => False
                 end.
(** The last redirect of descriptor n. *)
Definition last_for (n : nat) (l : list redirect) : option redirect :=
  fold_left (fun a r => if Nat.eqb (r_fd r) n then Some r else a) l None.
(** Descriptor n of a process is what the settings say. *)
Definition as_set (l : list redirect) (n : nat) (otherwise : option ofd -> Prop) (o : option ofd) : Prop :=
  match last_for n l with
  | Some r => match r_source r with SPath p => o = Some (OFile p (r_flag r)) | _ => exists k, o = Some (OTmp k) end
  | None => otherwise o
  end.
