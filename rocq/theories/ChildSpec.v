(** Notions for the forked child. *)
From Verif Require Import Py RedirModel Os PerformModel PathModel PathSpec EnvModel EnvSpec ExpandModel CommandModel ChildModel.

(** Text that can be passed to a program: no NUL, and no surrogates other than
    those standing for undecodable bytes. *)
Definition passable (t : text) : Prop :=
  forall c, In c t -> c <> 0%N /\ (c < 55296 \/ 57343 < c \/ 56448 <= c <= 56575)%N.
(** A name of a variable: not empty, and no = in it (a first one is allowed). *)
Definition proper_name (k : text) : Prop := exists c r, k = c :: r /\ ~ In 61%N r.
(** The text of a word exec accepts. *)
Definition word_text (w : word) (t : text) : Prop := w = WStr t \/ w = WObj t true.
(** The words form an argument vector: at least one, the first not empty, all
    without NUL and encodable. *)
Definition good_argv (ws : list word) (argv : list text) : Prop :=
  Forall2 word_text ws argv /\ Forall passable argv /\
  exists f r, argv = f :: r /\ f <> [].
(** The variables are strings with proper names. *)
Definition good_vars (vs : envs) (e : list (text * text)) : Prop :=
  vs = map (fun kv => (fst kv, Some (snd kv))) e /\
  Forall (fun kv => proper_name (fst kv) /\ passable (fst kv) /\ passable (snd kv)) e.
(** The directories of the search path. *)
Definition path_dirs (e : list (text * text)) (dirs : list text) : Prop :=
  dirs <> [] /\ Forall (fun d => ~ In 58%N d) dirs /\
  match find (fun kv => if list_eq_dec N.eq_dec (fst kv) (txt "PATH") then true else false) e with
  | Some (_, p) => p = join_with [58%N] dirs
  | None => dirs = [txt "/bin"; txt "/usr/bin"]
  end.
Definition runs (K : kernel) (cwd file : text) : Prop := k_exec K cwd file = None.
(** The file a command name denotes: itself if it contains a slash, otherwise the
    first file of that name in the search path that can be executed. *)
Inductive denotes (K : kernel) (cwd : text) (dirs : list text) (name : text) : text -> Prop :=
| den_path : In c_slash name -> runs K cwd name -> denotes K cwd dirs name name
| den_search before d after : ~ In c_slash name -> dirs = before ++ d :: after ->
    (forall b, In b before -> ~ runs K cwd (path_join b name)) -> runs K cwd (path_join d name) ->
    denotes K cwd dirs name (path_join d name).
(** The command can be started: its environment's directory can be entered and
    it denotes a program. *)
Definition startable (K : kernel) (dir : text) (ws : list word) (vs : envs) : Prop :=
  k_chdir K dir = None /\
  exists argv e dirs name rest file, good_argv ws argv /\ good_vars vs e /\ path_dirs e dirs /\ argv = name :: rest /\ denotes K dir dirs name file.

(** Error numbers are positive and small. *)
Definition sane (K : kernel) : Prop :=
  (forall d e, k_chdir K d = Some e -> (0 < e < 256)%N) /\
  (forall d f e, k_exec K d f = Some e -> (0 < e < 256)%N).
(** The child can write to its descriptor 2 once its redirects are made. *)
Definition stderr_works (K : kernel) (L : limits) (logfd maxfd : nat) (rs : redirects) (t : tab) : Prop :=
  exists e, tget (fst (perform L logfd maxfd rs t)) 2 = Some e /\ k_write K (e_ofd e) = None.

Definition goes_on (x : ending) : Prop := exists e, x = GoesOn e.
(** A pipeline fails if one of its items does. *)
Definition failed (l : list item_end) : Prop := exists i, In i l /\ (i = FEnd true \/ exists s, i = PEnd s /\ s <> 0%N).
