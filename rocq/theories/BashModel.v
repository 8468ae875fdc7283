(** Model of bashsource: parse_declares and BashSource._run,
    /repo/pieshell/pipeline/builtins.py:102-174, with the part of the standard
    library's shlex it uses. *)
From Verif Require Import Py PathModel EnvModel.

Notation c_nl := 10%N.
Notation c_blank := 32%N.
Notation c_dq := 34%N.
Notation c_hash := 35%N.
Notation c_sq := 39%N.
Notation c_bslash := 92%N.
Notation c_eq := 61%N.
Notation c_semi := 59%N.

(** ** shlex.shlex(io.StringIO(data), posix=True) with whitespace_split, as used
    at builtins.py:103-105: shlex.read_token, called until it returns None.
    whitespace is " \t\r\n", quotes are the single and the double quote, escape is the backslash,
    escapedquotes is the double quote,
    commenters is #.  [lex] is the list of the tokens get_token() returns, each
    with the value of l.lineno when it returned; the state of read_token is the
    mode, the token being built and the flag quoted.  A "#" outside quotes makes
    read_token call readline() and add one to lineno: that is the mode
    [LComment], entered with lineno already increased. *)
Definition is_ws (c : N) : bool := N.eqb c 32 || N.eqb c 9 || N.eqb c 13 || N.eqb c 10.
Inductive lmode := LSpace | LWord | LQuote (q : N) | LEsc (from : lquoted) | LComment
with lquoted := FromWord | FromQuote (q : N).
Definition bump (c : N) (ln : nat) : nat := if N.eqb c c_nl then S ln else ln.
Definition nonempty {A} (l : list A) : bool := match l with [] => false | _ => true end.
Fixpoint lex (inp : text) (m : lmode) (tok : text) (quoted : bool) (ln : nat) : res (list (text * nat)) :=
  match inp with
  | [] =>
      match m with
      | LSpace | LComment => Ok []
      | LWord => Ok (if nonempty tok || quoted then [(tok, ln)] else [])
      | LQuote _ | LEsc _ => Err ValueError
      end
  | c :: r =>
      match m with
      | LSpace =>
          if is_ws c then lex r LSpace [] false (bump c ln)
          else if N.eqb c c_hash then lex r LComment [] false (S ln)
          else if N.eqb c c_bslash then lex r (LEsc FromWord) [] false ln
          else if N.eqb c c_sq || N.eqb c c_dq then lex r (LQuote c) [] false ln
          else lex r LWord [c] false ln
      | LQuote q =>
          if N.eqb c q then lex r LWord tok true ln
          else if N.eqb c c_bslash && N.eqb q c_dq then lex r (LEsc (FromQuote q)) tok true ln
          else lex r (LQuote q) (tok ++ [c]) true (bump c ln)
      | LEsc FromWord => lex r LWord (tok ++ [c]) quoted (bump c ln)
      | LEsc (FromQuote q) =>
          lex r (LQuote q) (tok ++ (if negb (N.eqb c c_bslash) && negb (N.eqb c q) then [c_bslash; c] else [c])) quoted (bump c ln)
      | LWord =>
          if is_ws c then
            if nonempty tok || quoted
            then let* ts := lex r LSpace [] false (bump c ln) in Ok ((tok, bump c ln) :: ts)
            else lex r LSpace [] false (bump c ln)
          else if N.eqb c c_hash then
            if nonempty tok || quoted
            then let* ts := lex r LComment [] false (S ln) in Ok ((tok, S ln) :: ts)
            else lex r LComment [] false (S ln)
          else if N.eqb c c_sq || N.eqb c c_dq then lex r (LQuote c) tok quoted ln
          else if N.eqb c c_bslash then lex r (LEsc FromWord) tok quoted ln
          else lex r LWord (tok ++ [c]) quoted ln
      | LComment => if N.eqb c c_nl then lex r LSpace [] false ln else lex r LComment [] false ln
      end
  end.

(** builtins.py:107-119, the while loop: [cur] is l.lineno at the top of the
    loop, [last] is lastlineno, [line] the tokens gathered so far; the result is
    [lines].  What is in [line] when the loop ends is dropped. *)
Fixpoint gloop (toks : list (text * nat)) (cur last : nat) (line : list text) : list (nat * list text) :=
  let '(out, line') := if Nat.eqb cur last then ([], line) else ([(last, line)], []) in
  out ++ match toks with
         | [] => []
         | (t, ln) :: r => gloop r ln cur (line' ++ [t])
         end.

(** "=" in name / name.split("=", 1), builtins.py:125-129 *)
Fixpoint split_eq (s : text) : text * text :=
  match s with
  | [] => ([], [])
  | c :: r => if N.eqb c c_eq then ([], r) else let '(a, b) := split_eq r in (c :: a, b)
  end.
(** builtins.py:120-131, the body of the for loop over one line. *)
Definition decl_line (acc : vars * list (nat * text)) (l : nat * list text) : res (vars * list (nat * text)) :=
  let '(vs, starts) := acc in
  let '(lineno, line) := l in
  match line with
  | [] => Err IndexError
  | w0 :: ws =>
      if text_eqb w0 (txt "declare") then
        match ws with
        | _ :: name :: _ => let '(k, v) := split_eq name in Ok (dset vs k v, starts)
        | _ => Err IndexError
        end
      else match ws with
           | [w1; w2] => if text_eqb w1 (txt "()") && text_eqb w2 (txt "{") then Ok (vs, starts ++ [(lineno, w0)]) else Ok (vs, starts)
           | _ => Ok (vs, starts)
           end
  end.
Fixpoint decl_lines (acc : vars * list (nat * text)) (ls : list (nat * list text)) : res (vars * list (nat * text)) :=
  match ls with
  | [] => Ok acc
  | l :: r => let* acc' := decl_line acc l in decl_lines acc' r
  end.

(** str.split("\n") and "\n".join *)
Fixpoint split_nl (s : text) : list text :=
  match s with
  | [] => [ [] ]
  | c :: r => if N.eqb c c_nl then [] :: split_nl r
              else match split_nl r with l :: ls => (c :: l) :: ls | [] => [ [c] ] end
  end.
Fixpoint join_nl (ls : list text) : text :=
  match ls with
  | [] => []
  | [l] => l
  | l :: r => l ++ c_nl :: join_nl r
  end.
(** builtins.py:133-140; the line numbers of functions are at least 1, so
    lines[n-1:] is skipn (n-1). *)
Fixpoint fun_texts (lines : list text) (starts : list (nat * text)) (acc : vars) : vars :=
  match starts with
  | [] => acc
  | (n, name) :: r =>
      let from := skipn (n - 1) lines in
      let flines := match r with [] => from | (n', _) :: _ => firstn ((n' - 1) - (n - 1)) from end in
      fun_texts lines r (dset acc name (join_nl flines))
  end.

(** parse_declares, builtins.py:102-142 *)
Definition parse_declares (data : text) : res (vars * vars) :=
  let* toks := lex data LSpace [] false 1 in
  let* vf := decl_lines ([], []) (gloop toks 1 1 []) in
  Ok (fst vf, fun_texts (split_nl data) (snd vf) []).

(** dict.update *)
Definition dupdate (d upd : vars) : vars := fold_left (fun d kv => dset d (fst kv) (snd kv)) upd d.
(** BashSource.parse_decls, builtins.py:166-174: [lines] is what iterating stdin
    yields, the output lines without their newlines.  The result is the new
    (_exports, _bashfunctions). *)
Definition parse_decls (lines : list text) (exports bashfunctions : vars) : res (vars * vars) :=
  let* vf := parse_declares (join_nl lines) in
  Ok (dupdate exports (fst vf), dupdate bashfunctions (snd vf)).

(** ** The command given to bash -c, BashSource._run, builtins.py:152-160.
    [exps] are the results of _expand_argument for all arguments, in order. *)
Definition source_cmd (e : text) : text := txt "source '" ++ e ++ [c_sq].
Definition dump_cmd : text := txt "{ declare -x; declare -f; } > $0".
Fixpoint join_semi (ls : list text) : text :=
  match ls with
  | [] => []
  | [l] => l
  | l :: r => l ++ txt "; " ++ join_semi r
  end.
Definition bash_script (exps : list text) : text := join_semi (map source_cmd exps ++ [dump_cmd]).
