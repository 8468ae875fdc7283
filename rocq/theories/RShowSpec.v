(** What the printed form of redirects is expected to tell. *)
From Coq Require Import Ascii.
From Verif Require Import Py RedirModel.
Local Open Scope string_scope.
Fixpoint every (p : ascii -> bool) (s : string) : bool := match s with "" => true | String a r => p a && every p r end.
Definition is (a : string) (x : ascii) : bool := match a with String b "" => Ascii.eqb b x | _ => false end.
Definition is_digit (a : ascii) : bool := let n := nat_of_ascii a in Nat.leb 48 n && Nat.leb n 57.
(** A file name without blanks, commas and parentheses, that is not a number and does not
    start with a <. *)
Definition ordinary (s : string) : Prop :=
  every (fun a => negb (is " " a || is "," a || is "(" a || is ")" a)) s = true /\ every is_digit s = false /\
  (forall r, s <> "<" ++ r).
(** The redirect is to a descriptor, an ordinary file, PIPE, TMP or STRING. *)
Definition usual_redirect (r : redirect) : Prop :=
  match r_source r with SInt _ | SPIPE | STMP | SSTRING => True | SPath (PName s) => ordinary s | SPath (PTemp _) | SNone | SObj => False end.
(** The names of the flags are words, no two alike. *)
Definition flag_names (tab : list (string * N)) : Prop :=
  NoDup (map fst tab) /\ forall n b, In (n, b) tab -> n <> "" /\ every (fun a => negb (is "," a || is "=" a || is "]" a)) n = true.
(** The same flags, as far as they have names *)
Definition same_named (tab : list (string * N)) (f g : N) : Prop := forall n b, In (n, b) tab -> (N.land f b = 0%N <-> N.land g b = 0%N).
Definition same_redirect (tab : list (string * N)) (a b : redirect) : Prop :=
  r_fd a = r_fd b /\ r_source a = r_source b /\ r_mode a = r_mode b /\ r_pipe a = r_pipe b /\ r_borrowed a = r_borrowed b /\
  same_named tab (r_flag a) (r_flag b).
(** Each bit of the flags has a name of its own. *)
Definition each_named (tab : list (string * N)) (f : N) : Prop := forall i, N.testbit f i = true -> exists n, In (n, (2 ^ i)%N) tab.
