(** Reading a line of python: the fragment made of names, attributes, calls with
    string literals, [+] and [|].  Nothing here mentions how pipelines are
    printed. *)
From Verif Require Import Py PathModel EnvModel ExpandModel CommandModel ReprModel.

(** ** Tokens *)
(** [KNum]: a decimal integer as python accepts it (no leading zero; the zeros of
    [00] are left out). *)
Inductive token := KName (t : text) | KStr (t : text) | KNum (t : text)
                 | KDot | KOpen | KClose | KComma | KPlus | KBar | KMinus | KEq.
(** State of the scanner: between tokens, in a name, in a string literal opened by
    quote [q], in a number, after a backslash, or within a hexadecimal escape with [k] digits
    to go. *)
Inductive scan := Between | InName (acc : text) | InNum (acc : text) | InStr (q : N) (acc : text) | InEsc (q : N) (acc : text)
                | InHex (q : N) (acc : text) (k : nat) (n : N).
Definition in_range (a b c : N) : bool := ((a <=? c) && (c <=? b))%N.
Definition is_letter (c : N) : bool := in_range 65 90 c || in_range 97 122 c || N.eqb c 95.
Definition is_namechar (c : N) : bool := is_letter c || in_range 48 57 c.
Definition hexval (c : N) : option N :=
  if in_range 48 57 c then Some (c - 48)%N else if in_range 97 102 c then Some (c - 87)%N
  else if in_range 65 70 c then Some (c - 55)%N else None.
Definition is_quote (c : N) : bool := N.eqb c 39 || N.eqb c 34.
(** The first character of a token: what it completes, and the next state. *)
Definition first_char (c : N) : option (list token * scan) :=
  if N.eqb c 32 then Some ([], Between)
  else if is_letter c then Some ([], InName [c])
  else if in_range 48 57 c then Some ([], InNum [c])
  else if is_quote c then Some ([], InStr c [])
  else if N.eqb c 46 then Some ([KDot], Between)
  else if N.eqb c 40 then Some ([KOpen], Between)
  else if N.eqb c 41 then Some ([KClose], Between)
  else if N.eqb c 44 then Some ([KComma], Between)
  else if N.eqb c 43 then Some ([KPlus], Between)
  else if N.eqb c 124 then Some ([KBar], Between)
  else if N.eqb c 45 then Some ([KMinus], Between)
  else if N.eqb c 61 then Some ([KEq], Between)
  else None.
Definition next_char (s : scan) (c : N) : option (list token * scan) :=
  match s with
  | Between => first_char c
  | InName acc =>
      if is_namechar c then Some ([], InName (acc ++ [c]))
      else match first_char c with Some (l, s') => Some (KName acc :: l, s') | None => None end
  | InNum acc =>
      if in_range 48 57 c then (if match acc with [48%N] => true | _ => false end then None else Some ([], InNum (acc ++ [c])))
      else if is_letter c then None
      else match first_char c with Some (l, s') => Some (KNum acc :: l, s') | None => None end
  | InStr q acc =>
      if N.eqb c q then Some ([KStr acc], Between)
      else if N.eqb c 92 then Some ([], InEsc q acc)
      else if N.eqb c 10 || N.eqb c 13 || N.eqb c 0 then None
      else Some ([], InStr q (acc ++ [c]))
  | InEsc q acc =>
      if N.eqb c 92 || is_quote c then Some ([], InStr q (acc ++ [c]))
      else if N.eqb c 110 then Some ([], InStr q (acc ++ [10%N]))
      else if N.eqb c 114 then Some ([], InStr q (acc ++ [13%N]))
      else if N.eqb c 116 then Some ([], InStr q (acc ++ [9%N]))
      else if N.eqb c 120 then Some ([], InHex q acc 2 0%N)
      else if N.eqb c 117 then Some ([], InHex q acc 4 0%N)
      else if N.eqb c 85 then Some ([], InHex q acc 8 0%N)
      else None
  | InHex q acc k n =>
      match hexval c with
      | None => None
      | Some d =>
          let n' := (16 * n + d)%N in
          match k with
          | S (S k') => Some ([], InHex q acc (S k') n')
          | _ => if (n' <=? 1114111)%N then Some ([], InStr q (acc ++ [n'])) else None
          end
      end
  end.
Fixpoint tokens_from (s : scan) (t : text) : option (list token) :=
  match t with
  | [] => match s with Between => Some [] | InName acc => Some [KName acc] | InNum acc => Some [KNum acc] | _ => None end
  | c :: r => match next_char s c with
              | Some (l, s') => match tokens_from s' r with Some l' => Some (l ++ l') | None => None end
              | None => None
              end
  end.
Definition tokens (t : text) : option (list token) := tokens_from Between t.

(** ** Expressions.  [|] binds less tightly than [+]; both group to the left. *)
Inductive pyexp := XPrim (first : text) (ss : list CommandModel.step) | XAdd (a b : pyexp) | XOr (a b : pyexp).
Definition keywords : list text :=
  map txt ["False"; "None"; "True"; "and"; "as"; "assert"; "async"; "await"; "break"; "class"; "continue"; "def"; "del";
           "elif"; "else"; "except"; "finally"; "for"; "from"; "global"; "if"; "import"; "in"; "is"; "lambda"; "nonlocal";
           "not"; "or"; "pass"; "raise"; "return"; "try"; "while"; "with"; "yield"]%string.
Definition is_keyword (t : text) : bool := existsb (fun k => if list_eq_dec N.eq_dec t k then true else false) keywords.
(** Where the reader is: before an operand, after one (so far), after a dot,
    after an opening parenthesis or comma, after an argument. *)
Inductive place := Want | Have (first : text) (ss : list CommandModel.step) | Dotted (first : text) (ss : list CommandModel.step)
                 | Arg (first : text) (ss : list CommandModel.step) (args : list text)
                 | ArgDone (first : text) (ss : list CommandModel.step) (args : list text).
Record reader := mkR { r_or : option pyexp; r_add : option pyexp; r_place : place }.
Definition joined (op : pyexp -> pyexp -> pyexp) (l : option pyexp) (x : pyexp) : pyexp :=
  match l with Some y => op y x | None => x end.
Definition call_of (args : list text) : CommandModel.step := SCall (map AStr args) [].
Definition feed (r : reader) (k : token) : option reader :=
  let at_ p := Some (mkR (r_or r) (r_add r) p) in
  match r_place r, k with
  | Want, KName n => if is_keyword n then None else at_ (Have n [])
  | Have f ss, KDot => at_ (Dotted f ss)
  | Dotted f ss, KName n => if is_keyword n then None else at_ (Have f (ss ++ [SAttr n]))
  | Have f ss, KOpen => at_ (Arg f ss [])
  | Arg f ss args, KStr t => at_ (ArgDone f ss (args ++ [t]))
  | ArgDone f ss args, KComma => at_ (Arg f ss args)
  | Arg f ss args, KClose => at_ (Have f (ss ++ [call_of args]))
  | ArgDone f ss args, KClose => at_ (Have f (ss ++ [call_of args]))
  | Have f ss, KPlus => Some (mkR (r_or r) (Some (joined XAdd (r_add r) (XPrim f ss))) Want)
  | Have f ss, KBar => Some (mkR (Some (joined XOr (r_or r) (joined XAdd (r_add r) (XPrim f ss)))) None Want)
  | _, _ => None
  end.
Fixpoint feed_all (r : reader) (l : list token) : option pyexp :=
  match l with
  | [] => match r_place r with
          | Have f ss => Some (joined XOr (r_or r) (joined XAdd (r_add r) (XPrim f ss)))
          | _ => None
          end
  | k :: l' => match feed r k with Some r' => feed_all r' l' | None => None end
  end.
Definition parse (t : text) : option pyexp :=
  match tokens t with Some l => feed_all (mkR None None Want) l | None => None end.
(** The value of a string literal. *)
Definition literal (t : text) : option text := match tokens t with Some [KStr v] => Some v | _ => None end.

(** The value of an expression: a name is a command of the environment
    (CommandModel.spell_env), [+] groups and [|] pipes. *)
Fixpoint eval (x : pyexp) : res tree :=
  match x with
  | XPrim f ss => let* c := spell_env f ss in Ok (TCmd c)
  | XAdd a b => let* p := eval a in let* q := eval b in Ok (TGroup p q)
  | XOr a b => let* p := eval a in let* q := eval b in Ok (TPipe p q)
  end.
(** Typing a line in. *)
Definition typed (t : text) (p : tree) : Prop := exists x, parse t = Some x /\ eval x = Ok p.

(** ** Pipelines that do the same: commands of the same kind with the same words,
    up to the grouping of [|] and of [+] (C60). *)
Section Same.
  Context (w : world) (cwd : text) (sc : scope).
  Inductive same : tree -> tree -> Prop :=
  | same_cmd c d ws : c_cls c = c_cls d -> arg_list w cwd sc (c_arg c) = Ok ws -> arg_list w cwd sc (c_arg d) = Ok ws -> same (TCmd c) (TCmd d)
  | same_pipe a b a' b' : same a a' -> same b b' -> same (TPipe a b) (TPipe a' b')
  | same_group a b a' b' : same a a' -> same b b' -> same (TGroup a b) (TGroup a' b')
  | same_pipe_assoc a b c : same (TPipe (TPipe a b) c) (TPipe a (TPipe b c))
  | same_group_assoc a b c : same (TGroup (TGroup a b) c) (TGroup a (TGroup b c))
  | same_refl p : same p p
  | same_trans p q r : same p q -> same q r -> same p r.
End Same.

(** ** Commands and pipelines whose printed form can be typed in *)
(** Words written as attributes: letters only (python's [$] lets a newline
    follow). *)
Definition ascii_letter (c : N) : Prop := (65 <= c <= 90)%N \/ (97 <= c <= 122)%N.
Definition wordlike (t : text) : Prop := Forall ascii_letter t \/ exists u, t = u ++ [10%N] /\ Forall ascii_letter u.
(** A name that python reads back. *)
Definition name_ok (t : text) : Prop := t <> [] /\ Forall ascii_letter t /\ ~ In t keywords.
Definition char (c : N) : Prop := (c <= 1114111)%N.
Section Plain.
  Context (w : world) (cwd : text) (sc : scope) (reserved env_reserved : list text).
  (** [t] expands to itself. *)
  Definition stays (t : text) : Prop := expand_str w cwd sc t = Ok [t].
  (** the leading words written as attributes are names python accepts there *)
  Definition names_ok (ts : list text) : Prop :=
    forall pre t post, ts = pre ++ t :: post -> Forall wordlike pre -> wordlike t ->
      name_ok t /\ (pre = [] -> ~ In t env_reserved) /\ (pre <> [] -> ~ In t reserved).
  Definition plain_words (ts : list text) : Prop :=
    ts <> [] /\ Forall stays ts /\ Forall (Forall char) ts /\ names_ok ts.
  (** The command is one made by [env]: its first argument is a string, which is
      also its first word; none of its arguments is a pipeline. *)
  Definition no_pipe (a : arg) : Prop :=
    match a with
    | APipe _ _ => False
    | ADict kw => Forall (fun kv => match snd kv with KVal (APipe _ _) => False | _ => True end) kw
    | _ => True
    end.
  Definition plain_cmd (c : cmd) : Prop :=
    exists first rest ts, c_arg c = AStr first :: rest /\ construct CBase (c_arg c) = Ok c /\ stays first /\
      Forall no_pipe rest /\ arg_list w cwd sc (c_arg c) = Ok (map WStr ts) /\ plain_words ts.
  Inductive plain_sum : tree -> Prop :=
  | ps_cmd c : plain_cmd c -> plain_sum (TCmd c)
  | ps_group a b : plain_sum a -> plain_sum b -> plain_sum (TGroup a b).
  Inductive plain : tree -> Prop :=
  | p_sum p : plain_sum p -> plain p
  | p_pipe a b : plain a -> plain b -> plain (TPipe a b).
End Plain.

(** ** Displaying *)
(** No argument inserts the output of a command. *)
Inductive quiet : obj -> Prop :=
| q_plain : quiet ObPlain
| q_raises : quiet ObRaises
| q_seq l : Forall quiet l -> quiet (ObSeq l)
| q_pipe env i st oc bad parts : Forall quiet parts -> quiet (ObPipeline env i st oc [] bad parts).
(** What the prompt does with a value: the pipelines it runs, in order, and
    whether an exception comes out. *)
Inductive displayed : obj -> list nat -> bool -> Prop :=
| d_plain : displayed ObPlain [] false
| d_raises : displayed ObRaises [] true
| d_run env oc ins bad parts : oc <> RunFailed -> displayed (ObPipeline env true false oc ins bad parts) [env] false
| d_fail env ins bad parts : displayed (ObPipeline env true false RunFailed ins bad parts) [env] true
| d_started env i oc ins bad parts : displayed (ObPipeline env i true oc ins bad parts) [] bad
| d_script env st oc ins bad parts : displayed (ObPipeline env false st oc ins bad parts) [] bad
| d_nil : displayed (ObSeq []) [] false
| d_stop x l r : displayed x r true -> displayed (ObSeq (x :: l)) r true
| d_more x l r r' e : displayed x r false -> displayed (ObSeq l) r' e -> displayed (ObSeq (x :: l)) (r ++ r') e.
(** Pipelines typed at the prompt, as elements of a list. *)
Definition fresh (env : nat) : obj := ObPipeline env true false RunOk [] false [].
