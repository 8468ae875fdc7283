(** Command line options, and how ssh and a shell pass a command on. *)
From Verif Require Import Py PathModel EnvModel ShellModel BashSpec.

(** [spells a n v]: the word [a] sets option [n] to [v]. *)
Definition spells (a n : text) (v : kwv) : Prop :=
  ~ In 61%N n /\ (a = txt "--" ++ n /\ v = KvTrue \/ exists t, a = txt "--" ++ n ++ 61%N :: t /\ v = KvStr t).
(** Option [n] has value [v]: the last word that sets it sets it to [v]. *)
Definition given (argv : list text) (n : text) (v : kwv) : Prop :=
  exists pre a post, argv = pre ++ a :: post /\ spells a n v /\ forall b v', In b post -> ~ spells b n v'.
Definition positional (a : text) : Prop := ~ exists n v, spells a n v.
Definition absent (argv : list text) (n : text) : Prop := forall a v, In a argv -> ~ spells a n v.
(** Set, and not to the empty string. *)
Definition switched_on (argv : list text) (n : text) : Prop := exists v, given argv n v /\ v <> KvStr [].
(** [picked P l l']: [l'] are the elements of [l] with property P, in order. *)
Inductive picked {A} (P : A -> Prop) : list A -> list A -> Prop :=
| pk_nil : picked P [] []
| pk_yes x l l' : P x -> picked P l l' -> picked P (x :: l) (x :: l')
| pk_no x l l' : ~ P x -> picked P l l' -> picked P (x :: l) l'.

(** ssh joins the words after the host with blanks and hands the line to a shell
    on the other machine.  [remote_argv line ws]: the shell reads the line as one
    command with the words [ws], none of which it expands any further. *)
Definition inert (c : N) : bool := (* stands for itself even unquoted *)
  ((97 <=? c) && (c <=? 122) || (65 <=? c) && (c <=? 90) || (48 <=? c) && (c <=? 57))%N || N.eqb c 45 || N.eqb c 61.
Inductive remote_argv (line : text) : list text -> Prop :=
| remote_words ws : sh_read line = Some (map SW ws) -> Forall (Forall (fun cq => snd cq = true \/ inert (fst cq) = true)) ws ->
    remote_argv line (map (map fst) ws).
Definition byte (c : N) : Prop := (c < 256)%N.
