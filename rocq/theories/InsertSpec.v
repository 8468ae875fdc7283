(** The commands of a pipeline and the pipelines its words insert. *)
From Verif Require Import Py InsertModel.

(** The commands of a pipeline, argument pipelines before their command. *)
Fixpoint commands (p : ipl) : list nat :=
  match p with
  | ICmd id args => flat_map (fun a => match a with ISub q => commands q | _ => [] end) args ++ [id]
  | IFun => []
  | IPipe a b | IGroup a b => commands a ++ commands b
  | IRedir q => commands q
  end.
(** [inserts p q]: a word of a command of [p] inserts the output of [q]. *)
Inductive inserts : ipl -> ipl -> Prop :=
| ins_word id args l q : In (IStr l) args -> In q l -> inserts (ICmd id args) q
| ins_arg id args r q : In (ISub r) args -> inserts r q -> inserts (ICmd id args) q
| ins_pipe_l a b q : inserts a q -> inserts (IPipe a b) q
| ins_pipe_r a b q : inserts b q -> inserts (IPipe a b) q
| ins_group_l a b q : inserts a q -> inserts (IGroup a b) q
| ins_group_r a b q : inserts b q -> inserts (IGroup a b) q
| ins_redir p q : inserts p q -> inserts (IRedir p) q.
(** Command [x] occurs anywhere in [p]. *)
Inductive mentions (x : nat) : ipl -> Prop :=
| men_id args : mentions x (ICmd x args)
| men_word id args l q : In (IStr l) args -> In q l -> mentions x q -> mentions x (ICmd id args)
| men_arg id args q : In (ISub q) args -> mentions x q -> mentions x (ICmd id args)
| men_pipe_l a b : mentions x a -> mentions x (IPipe a b)
| men_pipe_r a b : mentions x b -> mentions x (IPipe a b)
| men_group_l a b : mentions x a -> mentions x (IGroup a b)
| men_group_r a b : mentions x b -> mentions x (IGroup a b)
| men_redir p : mentions x p -> mentions x (IRedir p).
(** [x] occurs in [p] only as one command, without arguments, inserted in a word
    of a command that has [k] operators (|, +, redirects) around it. *)
Inductive inserted_below (x : nat) : nat -> ipl -> Prop :=
| below_cmd id before after : ~ mentions x (ICmd id (before ++ after)) -> inserted_below x 0 (ICmd id (before ++ IStr [ICmd x []] :: after))
| below_pipe_l k a b : inserted_below x k a -> ~ mentions x b -> inserted_below x (S k) (IPipe a b)
| below_pipe_r k a b : ~ mentions x a -> inserted_below x k b -> inserted_below x (S k) (IPipe a b)
| below_group_l k a b : inserted_below x k a -> ~ mentions x b -> inserted_below x (S k) (IGroup a b)
| below_group_r k a b : ~ mentions x a -> inserted_below x k b -> inserted_below x (S k) (IGroup a b)
| below_redir k a : inserted_below x k a -> inserted_below x (S k) (IRedir a).
(** A command inserted in a word of a command inserted in a word ... [k] times. *)
Fixpoint nested (k x : nat) : ipl := match k with 0 => ICmd x [] | S k' => ICmd (k + x) [IStr [nested k' x]] end.
Definition times (x : nat) (l : list nat) : nat := count_occ Nat.eq_dec l x.
