(** What bash prints and how bash reads a command line, independent of the
    parser in BashModel.v.  (Checked against bash 5.2's declare.) *)
From Verif Require Import Py PathModel EnvModel.

(** ** declare -x *)
(** sh_double_quote: inside double quotes bash escapes the double quote, dollar,
    backquote and backslash. *)
Definition dq_special (c : N) : bool := N.eqb c 34 || N.eqb c 36 || N.eqb c 96 || N.eqb c 92.
Definition dq_escape (v : text) : text := List.concat (map (fun c => if dq_special c then [92%N; c] else [c]) v).
(** ansic_quote: used if the value has a control character *)
Definition control (c : N) : bool := (c <? 32)%N || N.eqb c 127.
Definition octal (c : N) : text := [92%N; (48 + c / 64)%N; (48 + (c / 8) mod 8)%N; (48 + c mod 8)%N].
Definition ansi_char (c : N) : text :=
  if N.eqb c 10 then txt "\n" else if N.eqb c 9 then txt "\t" else if N.eqb c 13 then txt "\r" else
  if N.eqb c 7 then txt "\a" else if N.eqb c 8 then txt "\b" else if N.eqb c 11 then txt "\v" else
  if N.eqb c 12 then txt "\f" else if N.eqb c 27 then txt "\E" else
  if N.eqb c 92 then txt "\\" else if N.eqb c 39 then txt "\'" else
  if control c then octal c else [c].
Definition ansi_escape (v : text) : text := List.concat (map ansi_char v).
Definition printed_value (v : text) : text :=
  if existsb control v then txt "$'" ++ ansi_escape v ++ [39%N] else [34%N] ++ dq_escape v ++ [34%N].

(** one variable: its attribute flags as declare prints them ("-x", "-rx", ...),
    its name, its value (None: exported but not set) *)
Record bvar := mkVar { v_flags : text; v_name : text; v_value : option text }.
Definition print_var (b : bvar) : text :=
  txt "declare " ++ v_flags b ++ [32%N] ++ v_name b ++
  match v_value b with None => [] | Some v => 61%N :: printed_value v end ++ [10%N].
Definition print_vars (vs : list bvar) : text := List.concat (map print_var vs).

(** a word without blanks, quotes, backslash or # *)
Definition special (c : N) : bool := N.eqb c 39 || N.eqb c 34 || N.eqb c 92 || N.eqb c 35.
Definition blank (c : N) : bool := N.eqb c 32 || N.eqb c 9 || N.eqb c 13 || N.eqb c 10.
Definition word (w : text) : Prop := w <> [] /\ forall c, In c w -> special c = false /\ blank c = false.
Definition var_ok (b : bvar) : Prop := word (v_flags b) /\ word (v_name b) /\ ~ In 61%N (v_name b).

(** ** declare -f: `name () ` newline `{ ` newline body newline `}` newline *)
Record bfun := mkFun { f_name : text; f_body : text }.
Definition fun_text (f : bfun) : text :=
  f_name f ++ txt " () " ++ [10%N] ++ txt "{ " ++ [10%N] ++ f_body f ++ [10%N] ++ txt "}".
Definition print_fun (f : bfun) : text := fun_text f ++ [10%N].
Definition print_funs (fs : list bfun) : text := List.concat (map print_fun fs).
(** the blank separated words of a text *)
Fixpoint words_from (w : text) (s : text) : list text :=
  match s with
  | [] => match w with [] => [] | _ => [w] end
  | c :: r => if blank c then match w with [] => words_from [] r | _ => w :: words_from [] r end
              else words_from (w ++ [c]) r
  end.
Definition words (s : text) : list text := words_from [] s.
(** The words of a text as a shell-like reader takes them: quotes and backslashes are
    removed, # begins a comment (also inside a word: this is shlex's rule, not bash's).
    [reads w b s ws]: having read [w] of a word ([b]: a word has begun), the rest [s]
    gives the words [ws]; there is no such [ws] if a quote is left open. *)
Inductive dq_text : text -> text -> Prop :=
  | Dq_end : dq_text [] []
  | Dq_char c v u : c <> 34%N -> c <> 92%N -> dq_text v u -> dq_text (c :: v) (c :: u)
  | Dq_esc c v u : c = 34%N \/ c = 92%N -> dq_text v u -> dq_text (92%N :: c :: v) (c :: u)
  | Dq_other c v u : c <> 34%N -> c <> 92%N -> dq_text v u -> dq_text (92%N :: c :: v) (92%N :: c :: u).
Inductive reads : text -> bool -> text -> list text -> Prop :=
  | R_none : reads [] false [] []
  | R_end w : reads w true [] [w]
  | R_blank c s ws : blank c = true -> reads [] false s ws -> reads [] false (c :: s) ws
  | R_sep w c s ws : blank c = true -> reads [] false s ws -> reads w true (c :: s) (w :: ws)
  | R_char w b c s ws : special c = false -> blank c = false -> reads (w ++ [c]) true s ws -> reads w b (c :: s) ws
  | R_esc w b c s ws : reads (w ++ [c]) true s ws -> reads w b (92%N :: c :: s) ws
  | R_sq w b v s ws : ~ In 39%N v -> reads (w ++ v) true s ws -> reads w b (39%N :: v ++ 39%N :: s) ws
  | R_dq w b v u s ws : dq_text v u -> reads (w ++ u) true s ws -> reads w b (34%N :: v ++ 34%N :: s) ws
  | R_comment w b v s ws : ~ In 10%N v -> reads [] false s ws -> reads w b (35%N :: v ++ 10%N :: s) (if b then w :: ws else ws)
  | R_comment_end w b v : ~ In 10%N v -> reads w b (35%N :: v) (if b then [w] else []).
(** a function whose quotes are balanced when read like that, and without the words
    declare and () *)
Definition fun_ok (f : bfun) : Prop :=
  word (f_name f) /\ f_name f <> txt "declare" /\
  exists ws, reads [] false (f_body f) ws /\ ~ In (txt "declare") ws /\ ~ In (txt "()") ws.

(** what bash writes: the variables, then the functions; and the lines a reader
    of that output gets (the output ends with a newline unless it is empty) *)
Definition bash_output (vs : list bvar) (fs : list bfun) : text := print_vars vs ++ print_funs fs.
Fixpoint lines_of_from (l : text) (s : text) : list text :=
  match s with
  | [] => match l with [] => [] | _ => [l] end
  | c :: r => if N.eqb c 10 then l :: lines_of_from [] r else lines_of_from (l ++ [c]) r
  end.
Definition lines_of (s : text) : list text := lines_of_from [] s.

(** ** How bash reads a command line: words and operators.  A word is a list of
    characters, each with a flag: true if it was quoted (so it stands for
    itself), false if not (so $, *, ... may still be expanded).  Not modelled:
    what is inside $(...) and `...` , here-documents, $'...'. *)
Inductive stok := SW (w : list (N * bool)) | SOp (c : N).
Definition sh_op (c : N) : bool :=
  N.eqb c 59 || N.eqb c 38 || N.eqb c 124 || N.eqb c 40 || N.eqb c 41 || N.eqb c 60 || N.eqb c 62 || N.eqb c 10.
Definition sh_blank (c : N) : bool := N.eqb c 32 || N.eqb c 9.
Inductive smode := SmBlank | SmWord | SmSq | SmDq | SmEsc | SmDqEsc | SmComment.
Fixpoint sh (inp : text) (m : smode) (w : list (N * bool)) : option (list stok) :=
  match inp with
  | [] =>
      match m with
      | SmBlank | SmComment => Some []
      | SmWord => Some [SW w]
      | SmEsc => Some [SW (w ++ [(92%N, true)])]
      | SmSq | SmDq | SmDqEsc => None
      end
  | c :: r =>
      match m with
      | SmBlank =>
          if sh_blank c then sh r SmBlank []
          else if sh_op c then option_map (cons (SOp c)) (sh r SmBlank [])
          else if N.eqb c 35 then sh r SmComment []
          else if N.eqb c 39 then sh r SmSq []
          else if N.eqb c 34 then sh r SmDq []
          else if N.eqb c 92 then sh r SmEsc []
          else sh r SmWord [(c, false)]
      | SmWord =>
          if sh_blank c then option_map (cons (SW w)) (sh r SmBlank [])
          else if sh_op c then option_map (fun t => SW w :: SOp c :: t) (sh r SmBlank [])
          else if N.eqb c 39 then sh r SmSq w
          else if N.eqb c 34 then sh r SmDq w
          else if N.eqb c 92 then sh r SmEsc w
          else sh r SmWord (w ++ [(c, false)])
      | SmSq => if N.eqb c 39 then sh r SmWord w else sh r SmSq (w ++ [(c, true)])
      | SmDq =>
          if N.eqb c 34 then sh r SmWord w
          else if N.eqb c 92 then sh r SmDqEsc w
          else sh r SmDq (w ++ [(c, negb (N.eqb c 36 || N.eqb c 96))])
      | SmEsc => sh r SmWord (if N.eqb c 10 then w else w ++ [(c, true)])
      | SmDqEsc => sh r SmDq (if N.eqb c 10 then w else if dq_special c then w ++ [(c, true)] else w ++ [(92%N, true); (c, true)])
      | SmComment => if N.eqb c 10 then option_map (cons (SOp c)) (sh r SmBlank []) else sh r SmComment []
      end
  end.
Definition sh_read (s : text) : option (list stok) := sh s SmBlank [].
Definition bare (s : text) : stok := SW (map (fun c => (c, false)) s).
Definition literal (s : text) : stok := SW (map (fun c => (c, true)) s).
(** `source FILE ;` for each file, then [rest] *)
Fixpoint source_all (files : list text) (rest : list stok) : list stok :=
  match files with
  | [] => rest
  | f :: fs => bare (txt "source") :: literal f :: SOp 59 :: source_all fs rest
  end.

(** ** What arrives in pieshell for a printed value (to be proved): a backslash
    is added before each $ and each backquote, and a value printed as $'...'
    arrives as a $ followed by bash's escape sequences. *)
Definition arrives (v : text) : text :=
  if existsb control v then 36%N :: ansi_escape v
  else List.concat (map (fun c => if N.eqb c 36 || N.eqb c 96 then [92%N; c] else [c]) v).
Definition arriving (b : bvar) : text * text :=
  (v_name b, match v_value b with None => [] | Some v => arrives v end).
(** values bash prints as $'...' and that have a single quote in them are left out *)
Definition value_ok (b : bvar) : Prop :=
  match v_value b with None => True | Some v => existsb control v = true -> ~ In 39%N v end.
(** a dict with these entries, later ones replacing earlier ones *)
Definition as_dict (l : list (text * text)) (d : vars) : Prop :=
  forall k, dget d k = dget (rev l) k.
(** dict.update: the new entries win, the others stay *)
Definition updated (old : vars) (l : list (text * text)) (new : vars) : Prop :=
  forall k, dget new k = match dget (rev l) k with Some v => Some v | None => dget old k end.
Definition set_values (vs : list bvar) : list (text * text) :=
  flat_map (fun b => match v_value b with Some v => [(v_name b, v)] | None => [] end) vs.
Definition texts (fs : list bfun) : list (text * text) := map (fun f => (f_name f, fun_text f)) fs.
