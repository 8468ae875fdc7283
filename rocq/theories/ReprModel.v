(** Model of the printed form of pipelines: BaseCommand._split_args and _repr
    (/repo/pieshell/pipeline/command.py:94-123), Pipe._repr (pipe.py:35-36),
    Group._repr (group.py:34-35), CmdRedirect._repr (redirect.py:34-35),
    Pipeline.__repr__ and pipeline_repr (base.py:27-42, 192-216), and of repr of a
    str as CPython defines it (Objects/unicodeobject.c unicode_repr). *)
From Verif Require Import Py PathModel EnvModel ExpandModel CommandModel.

(** Lower case hexadecimal, most significant digit first. *)
Definition hexdigit (n : N) : N := if (n <? 10)%N then (48 + n)%N else (87 + n)%N.
Fixpoint hex (k : nat) (n : N) : text :=
  match k with 0 => [] | S k' => hex k' (n / 16)%N ++ [hexdigit (n mod 16)%N] end.

Definition c_nl : N := 10%N.
Definition c_bsl : N := 92%N.
Definition c_squote : N := 39%N.
Definition c_dquote : N := 34%N.

Section Str.
  (** Py_UNICODE_ISPRINTABLE, asked only about characters above 126. *)
  Variable printable : N -> bool.
  (** unicode_repr: double quotes if the string has single quotes and no double
      quotes. *)
  Definition quote_of (t : text) : N :=
    if existsb (N.eqb c_squote) t && negb (existsb (N.eqb c_dquote) t) then c_dquote else c_squote.
  Definition esc (q c : N) : text :=
    if N.eqb c q || N.eqb c c_bsl then [c_bsl; c]
    else if N.eqb c 9 then [c_bsl; 116%N]
    else if N.eqb c 10 then [c_bsl; 110%N]
    else if N.eqb c 13 then [c_bsl; 114%N]
    else if (c <? 32)%N || N.eqb c 127 then c_bsl :: 120%N :: hex 2 c
    else if (c <? 127)%N then [c]
    else if printable c then [c]
    else if (c <? 256)%N then c_bsl :: 120%N :: hex 2 c
    else if (c <? 65536)%N then c_bsl :: 117%N :: hex 4 c
    else c_bsl :: 85%N :: hex 8 c.
  Definition repr_str (t : text) : text :=
    let q := quote_of t in q :: flat_map (esc q) t ++ [q].

  (** command.py:101: re.match(r"^[a-zA-Z]*$", word); $ also matches before a
      final newline. *)
  Definition letter (c : N) : bool := ((65 <=? c) && (c <=? 90))%N || ((97 <=? c) && (c <=? 122))%N.
  Definition re_name (t : text) : bool :=
    forallb letter t || match rev t with c :: r => N.eqb c c_nl && forallb letter r | [] => false end.
  (** command.py:94-104 _split_args; objects end the prefix. *)
  Fixpoint split_args (ws : list word) : list text * list word :=
    match ws with
    | WStr t :: r => if re_name t then let '(p, s) := split_args r in (t :: p, s) else ([], ws)
    | _ => ([], ws)
    end.
  (** repr of a word; [WObj]: the object's own repr is taken to be its str. *)
  Definition repr_word (w : word) : text := match w with WStr t => repr_str t | WObj t _ => t end.
  (** command.py:106-123 _repr; the " as ..." of a running process is left out. *)
  Definition repr_words (ws : list word) : text :=
    let '(p, s) := split_args ws in
    let prefix := match p with [] => txt "_" | _ => join_with (txt ".") p end in
    match s with
    | [] => prefix
    | _ => prefix ++ txt "(" ++ join_with (txt ", ") (map repr_word s) ++ txt ")"
    end.

  (** Pipelines.  [TRedir p r]: r is the printed form of the redirects. *)
  Inductive tree := TCmd (c : cmd) | TPipe (a b : tree) | TGroup (a b : tree) | TRedir (p : tree) (r : text).
  (** command.py:125-131: without redirects, i.e. when printing, a pipeline,
      function or iterable is shown as /dev/fd/X. *)
  Definition hide1 (a : arg) : arg := match a with APipe _ _ => AR (txt "/dev/fd/X") | _ => a end.
  Definition hide (a : arg) : arg :=
    match a with
    | ADict kw => ADict (map (fun kv => (fst kv, match snd kv with KVal a => KVal (hide1 a) | v => v end)) kw)
    | _ => hide1 a
    end.
  Context (w : world) (cwd : text) (sc : scope).
  Definition shown_words (c : cmd) : res (list word) := arg_list w cwd sc (map hide (c_arg c)).
  (** base.py:36-39: the printed form of a part that cannot be printed. *)
  Variable failed_text : tree -> text.
  (** [show_raw]: _repr, with every part in the same environment; [show]:
      pipeline_repr of it. *)
  Fixpoint show_raw (p : tree) : res text :=
    let show q := match show_raw q with Ok t => t | Err _ => failed_text q end in
    match p with
    | TCmd c => let* ws := shown_words c in Ok (repr_words ws)
    | TPipe a b => Ok (show a ++ txt " | " ++ show b)
    | TGroup a b => Ok (show a ++ txt " + " ++ show b)
    | TRedir q r => Ok (show q ++ txt " with " ++ r)
    end.
End Str.

(** ** When printing runs a pipeline: base.py:27-42 and 192-216.  Objects:
    strings and numbers, objects whose repr raises, lists and other containers
    of the language (whose repr calls the repr of their elements directly), and
    pipelines: environment, whether it is interactive, whether the pipeline was
    started, how running it would end; the commands whose output its arguments
    insert, as "%(date)s" does when date is a command (environ.py:83-85 with
    EnvScope.__getitem__, 215-233: str() of the command, base.py:177-182, runs
    it); whether expanding its arguments raises; and its parts (whose printed
    forms are asked for with the builtin repr, i.e. pipeline_repr).  Two objects
    are never the same object here: a pipeline displayed twice in a list is run
    once and shown once in the program. *)
Inductive obj :=
| ObPlain
| ObRaises
| ObSeq (l : list obj)
| ObPipeline (env : nat) (interactive started : bool) (outcome : run_outcome) (inserts : list nat) (bad : bool) (parts : list obj)
with run_outcome := RunOk | RunCanceled | RunSuspended | RunFailed.
(** repr_state.in_repr and Pipeline._print_state.env of the thread. *)
Record pstate := mkP { p_in : nat; p_env : option nat }.
(** What happens: pipelines run, in order, by environment. *)
Definition pout : Type := pstate * list nat * bool.   (* state, runs, raised *)
Section Print.
  (** [std]: type(obj).__repr__(obj); for pipelines base.py:192-216, with
      [pipeline_repr], base.py:29-42, for the parts. *)
  Fixpoint std (o : obj) (s : pstate) {struct o} : pout :=
    match o with
    | ObPlain => (s, [], false)
    | ObRaises => (s, [], true)
    | ObSeq l => (fix go l s := match l with
                                | [] => (s, [], false)
                                | x :: l' => let '(s1, r1, e1) := std x s in
                                             if e1 then (s1, r1, true) else let '(s2, r2, e2) := go l' s1 in (s2, r1 ++ r2, e2)
                                end) l s
    | ObPipeline env interactive started outcome inserts bad parts =>
        if negb started && interactive && (p_in s <? 1) then
          (s, [env], match outcome with RunFailed => true | _ => false end)
        else
          let s1 := mkP (p_in s) (Some env) in
          if bad then (mkP (p_in s1) (p_env s), inserts, true) else
          let '(s2, r, e) :=
            (fix go l s := match l with
                           | [] => (s, [], false)
                           | x :: l' =>
                               (* pipeline_repr(x): in_repr += 1; except: ...; finally: in_repr -= 1 *)
                               let '(s1, r1, e1) := std x (mkP (S (p_in s)) (p_env s)) in
                               let '(s2, r2, e2) := go l' (mkP (pred (p_in s1)) (p_env s1)) in (s2, r1 ++ r2, e2)
                           end) parts s1 in
          (mkP (p_in s2) (p_env s), inserts ++ r, e)
    end.
  (** base.py:29-42 pipeline_repr, which replaces builtins.repr *)
  Definition pipeline_repr (o : obj) (s : pstate) : pout :=
    let '(s1, r1, e1) := std o (mkP (S (p_in s)) (p_env s)) in
    (mkP (pred (p_in s1)) (p_env s1), r1, false).
End Print.
