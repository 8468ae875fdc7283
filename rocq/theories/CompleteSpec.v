(** What it means that a shell line stands for a list of words, and which words
    survive completion.  The shell's reading of a line is BashSpec.sh_read. *)
From Verif Require Import Py PathModel EnvModel BashSpec.

(** Characters a shell gives a meaning to when they are not quoted (besides
    blanks, quotes and operators): $ ` * ? [ ~ { *)
Definition active (c : N) : bool :=
  N.eqb c 36 || N.eqb c 96 || N.eqb c 42 || N.eqb c 63 || N.eqb c 91 || N.eqb c 126 || N.eqb c 123.
(** The token is one word that the shell leaves as it is: [w]. *)
Definition stands_for (t : stok) (w : text) : Prop :=
  exists cs, t = SW cs /\ map fst cs = w /\ Forall (fun cq => snd cq = true \/ active (fst cq) = false) cs.
(** Evaluating [line] is the single command [set -- ws...]: nothing else is
    executed and the words completed are [ws]. *)
Definition only_sets (line : text) (ws : list text) : Prop :=
  exists ts, sh_read line = Some (bare (txt "set") :: bare (txt "--") :: ts) /\ Forall2 stands_for ts ws.

(** A word without blanks, quotes, operators and active characters. *)
Definition simple_char (c : N) : Prop := sh_blank c = false /\ sh_op c = false /\ c <> 39%N /\ c <> 34%N /\ c <> 92%N /\ active c = false.
Definition simple_word (w : text) : Prop := w <> [] /\ hd_error w <> Some 35%N /\ Forall simple_char w.
(** A word with a blank, in characters that can be printed, without backslashes:
    anything else if it has no single quote; otherwise no double quote, dollar
    or backquote. *)
Definition visible (printable : N -> bool) (c : N) : Prop := (32 <= c < 127)%N \/ ((127 < c)%N /\ printable c = true).
Definition spaced_word (printable : N -> bool) (w : text) : Prop :=
  In 32%N w /\ Forall (visible printable) w /\ ~ In 92%N w /\
  (~ In 39%N w \/ (~ In 34%N w /\ ~ In 36%N w /\ ~ In 96%N w)).
(** No character that makes pieshell expand a word: % * ? [ ~ *)
Definition inert (w : text) : Prop := forall c, In c w -> c <> 37%N /\ c <> 42%N /\ c <> 63%N /\ c <> 91%N /\ c <> 126%N.
