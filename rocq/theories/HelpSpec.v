(** The options a help text lists. *)
From Verif Require Import Py PathModel EnvModel ExpandModel CommandModel.

Definition a_letter (c : N) : Prop := (65 <= c <= 90)%N \/ (97 <= c <= 122)%N.
Definition a_digit (c : N) : Prop := (48 <= c <= 57)%N.
(** The characters options are made of. *)
Definition option_char (c : N) : Prop := a_letter c \/ a_digit c \/ c = 45%N \/ c = 95%N.
Definition begins_with (P : N -> Prop) (t : text) : Prop := exists c r, t = c :: r /\ P c.
Definition ends_with (P : N -> Prop) (t : text) : Prop := exists r c, t = r ++ [c] /\ P c.
(** [--o] stands in the text, and nothing around it belongs to it. *)
Definition listed (help o : text) : Prop :=
  begins_with (fun c => a_letter c \/ a_digit c) o /\ Forall option_char o /\
  exists before after, help = before ++ txt "--" ++ o ++ after /\ ~ ends_with option_char before /\ ~ begins_with option_char after.
(** The word a keyword argument [k=True] or [k=value] becomes on the command line
    (C32). *)
Definition flag_word (w : world) (cwd : text) (sc : scope) (k : text) : res (list word) := arg_list w cwd sc [ADict [(k, KTrue)]].
Definition value_word (w : world) (cwd : text) (sc : scope) (k v : text) : res (list word) := arg_list w cwd sc [ADict [(k, KVal (AR v))]].

(** Options of two or more letters and dashes that come after a blank. *)
Definition plain_option (o : text) : Prop :=
  exists c r, o = c :: r /\ r <> [] /\ a_letter c /\ Forall (fun d => a_letter d \/ d = 45%N) r.
Definition after_blank (space : N -> bool) (help o : text) : Prop :=
  exists before s after, help = before ++ s :: txt "--" ++ o ++ after /\ space s = true /\ ~ begins_with (fun c => a_letter c \/ c = 45%N) after.
(** What is assumed of python's \s. *)
Definition blanks (space : N -> bool) : Prop := forall c, option_char c \/ In c [91; 61; 44]%N -> space c = false.
