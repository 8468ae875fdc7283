(** Typing in the printed form of a process: python's reading of
    [name.name(argument, ..., key=value, ...)] where values are string literals,
    integers, names, True and False, and negated names and integers.  Nothing here
    mentions how processes are printed. *)
From Verif Require Import Py PathModel EnvModel ExpandModel CommandModel CommandSpec ReprModel ReprSpec.

Inductive pyval := VStr (t : text) | VName (n : text) | VNegName (n : text) | VInt (t : text) | VNegInt (t : text) | VBool (b : bool).
(** A line: the first name, the attributes, and the arguments if it is a call. *)
Record line := mkL { l_first : text; l_attrs : list text; l_call : option (list pyval * list (text * pyval)) }.
Inductive spot :=
| QWant | QHave (f : text) (ns : list text) | QDot (f : text) (ns : list text)
| QArg (f : text) (ns : list text) (pos : list pyval) (kw : list (text * pyval))
| QMinus (f : text) (ns : list text) (pos : list pyval) (kw : list (text * pyval)) (key : option text)
| QName (f : text) (ns : list text) (pos : list pyval) (kw : list (text * pyval)) (n : text)
| QEq (f : text) (ns : list text) (pos : list pyval) (kw : list (text * pyval)) (k : text)
| QDone (f : text) (ns : list text) (pos : list pyval) (kw : list (text * pyval))
| QEnd (f : text) (ns : list text) (pos : list pyval) (kw : list (text * pyval)).
(** A further argument: python refuses positional arguments after keyword ones,
    and repeated keywords. *)
Definition with_value (f : text) (ns : list text) (pos : list pyval) (kw : list (text * pyval)) (key : option text) (v : pyval) : option spot :=
  match key with
  | None => match kw with [] => Some (QDone f ns (pos ++ [v]) []) | _ => None end
  | Some k => if existsb (fun e => if list_eq_dec N.eq_dec (fst e) k then true else false) kw then None
              else Some (QDone f ns pos (kw ++ [(k, v)]))
  end.
Definition name_value (n : text) : option pyval :=
  if list_eq_dec N.eq_dec n (txt "True") then Some (VBool true)
  else if list_eq_dec N.eq_dec n (txt "False") then Some (VBool false)
  else if is_keyword n then None else Some (VName n).
Definition take (s : spot) (k : token) : option spot :=
  match s, k with
  | QWant, KName n => if is_keyword n then None else Some (QHave n [])
  | QHave f ns, KDot => Some (QDot f ns)
  | QDot f ns, KName n => if is_keyword n then None else Some (QHave f (ns ++ [n]))
  | QHave f ns, KOpen => Some (QArg f ns [] [])
  | QArg f ns p kw, KStr t => with_value f ns p kw None (VStr t)
  | QArg f ns p kw, KNum t => with_value f ns p kw None (VInt t)
  | QArg f ns p kw, KMinus => Some (QMinus f ns p kw None)
  | QArg f ns p kw, KName n => Some (QName f ns p kw n)
  | QArg f ns p kw, KClose => Some (QEnd f ns p kw)
  | QMinus f ns p kw key, KName n => if is_keyword n then None else with_value f ns p kw key (VNegName n)
  | QMinus f ns p kw key, KNum t => with_value f ns p kw key (VNegInt t)
  | QName f ns p kw n, KEq => if is_keyword n then None else Some (QEq f ns p kw n)
  | QName f ns p kw n, KComma =>
      match name_value n with
      | Some v => match with_value f ns p kw None v with Some (QDone f' ns' p' kw') => Some (QArg f' ns' p' kw') | _ => None end
      | None => None
      end
  | QName f ns p kw n, KClose =>
      match name_value n with
      | Some v => match with_value f ns p kw None v with Some (QDone f' ns' p' kw') => Some (QEnd f' ns' p' kw') | _ => None end
      | None => None
      end
  | QEq f ns p kw k, KStr t => with_value f ns p kw (Some k) (VStr t)
  | QEq f ns p kw k, KNum t => with_value f ns p kw (Some k) (VInt t)
  | QEq f ns p kw k, KName n => match name_value n with Some v => with_value f ns p kw (Some k) v | None => None end
  | QEq f ns p kw k, KMinus => Some (QMinus f ns p kw (Some k))
  | QDone f ns p kw, KComma => Some (QArg f ns p kw)
  | QDone f ns p kw, KClose => Some (QEnd f ns p kw)
  | _, _ => None
  end.
Fixpoint take_all (s : spot) (l : list token) : option line :=
  match l with
  | [] => match s with
          | QHave f ns => Some (mkL f ns None)
          | QEnd f ns p kw => Some (mkL f ns (Some (p, kw)))
          | _ => None
          end
  | k :: l' => match take s k with Some s' => take_all s' l' | None => None end
  end.
Definition read_line (t : text) : option line :=
  match tokens t with Some l => take_all QWant l | None => None end.

(** What the line denotes: names are commands of the environment; [fd n] is the
    descriptor on which the output of a command [n] given as an argument is passed
    (C12). *)
Section Value.
  Context (fd : text -> nat).
  Definition value (v : pyval) : res arg :=
    match v with
    | VStr t => Ok (AStr t)
    | VName n => let* c := as_cmd (env_attr n) in Ok (APipe true (fd n))
    | VNegName n => let* c := as_cmd (env_attr n) in neg c
    | VInt t => Ok (AObj t false)
    | VNegInt t => Ok (AObj (txt "-" ++ t) false)
    | VBool b => Ok (AObj (if b then txt "True" else txt "False") false)
    end.
  Definition kw_value (v : pyval) : res kwval :=
    match v with VBool true => Ok KTrue | VBool false => Ok KFalse | _ => let* a := value v in Ok (KVal a) end.
  Fixpoint values (l : list pyval) : res (list arg) :=
    match l with [] => Ok [] | v :: l' => let* a := value v in let* r := values l' in Ok (a :: r) end.
  Fixpoint kw_values (l : list (text * pyval)) : res (list (text * kwval)) :=
    match l with [] => Ok [] | (k, v) :: l' => let* a := kw_value v in let* r := kw_values l' in Ok ((k, a) :: r) end.
  Definition denoted (l : line) : res cmd :=
    match l_call l with
    | None => spell_env (l_first l) (map SAttr (l_attrs l))
    | Some (p, kw) => let* a := values p in let* b := kw_values kw in spell_env (l_first l) (map SAttr (l_attrs l) ++ [SCall a b])
    end.
  (** Typing [t] in gives the command [c]. *)
  Definition typed_in (t : text) (c : cmd) : Prop := exists l, read_line t = Some l /\ denoted l = Ok c.
End Value.

(** The command [c] executes a program with exactly the words [argv]. *)
Definition runs_as (w : world) (cwd : text) (sc : scope) (c : cmd) (argv : list text) : Prop :=
  exists ws, arg_list w cwd sc (c_arg c) = Ok ws /\ exec_argv ws = Ok argv.

(** ** Words *)
Definition lower_or_digit (c : N) : Prop := (97 <= c <= 122)%N \/ (48 <= c <= 57)%N.
Fixpoint underscored (ws : list text) : text :=
  match ws with [] => [] | [x] => x | x :: r => x ++ 95%N :: underscored r end.
(** Strings of the form [a9_b_c]; the empty string is one too. *)
Definition is_slug (t : text) : Prop :=
  exists ws, t = underscored ws /\ Forall (fun x => x <> [] /\ Forall lower_or_digit x) ws.
(** What is assumed about slugify(_, separator="_"): which strings it leaves as
    they are. *)
Definition slugifies (slug : text -> text) : Prop := forall t, slug t = t <-> is_slug t.
(** A python name that is no keyword. *)
Definition pyname (t : text) : Prop :=
  ~ In t keywords /\ match t with [] => False | c :: r => is_letter c = true /\ Forall (fun d => is_namechar d = true) r end.
Definition digit (c : N) : Prop := (48 <= c <= 57)%N.
Definition digits (t : text) : Prop := t <> [] /\ Forall digit t.
(** Integers as they are printed. *)
Definition integer (t : text) : Prop := digits t /\ (hd 0%N t = 48%N -> t = [48%N]).
(** A python name that denotes a command with that name (CommandSpec.env_reserved:
    the attributes of the environment that are no commands). *)
Definition names_command (n : text) : Prop :=
  pyname n /\ ~ In n env_reserved /\ n <> txt "_".
(** Words written as names: [a.b.c] (CommandSpec.reserved: the attributes of
    commands that are no commands). *)
Definition name_words (ns : list text) : Prop :=
  Forall (fun n => is_slug n /\ pyname n) ns /\
  match ns with [] => True | n :: r => ~ In n env_reserved /\ Forall (fun m => ~ In m reserved) r end.
(** Short options [-abc] whose letters form a name, and words that neither begin
    with a single dash nor have the form [--key=value]. *)
Definition long_option (t : text) : Prop := exists k v, t = txt "--" ++ k ++ txt "=" ++ v.
Inductive arg_word : text -> Prop :=
| aw_option n : names_command n -> arg_word (txt "-" ++ n)
| aw_word t : Forall char t -> ~ (exists r, t = txt "-" ++ r) -> arg_word t
| aw_dashes t : Forall char t -> (exists r, t = txt "--" ++ r) -> ~ long_option t -> arg_word t.
(** [--key=80] *)
Definition key_ok (k : text) : Prop := pyname k /\ ~ In 95%N k.
Definition option_word (kv : text * text) : text := txt "--" ++ fst kv ++ txt "=" ++ snd kv.
(** [interleaved a b l]: [l] has the elements of [a] and of [b], each in order. *)
Inductive interleaved {A : Type} : list A -> list A -> list A -> Prop :=
| il_nil : interleaved [] [] []
| il_left x a b l : interleaved a b l -> interleaved (x :: a) b (x :: l)
| il_right x a b l : interleaved a b l -> interleaved a (x :: b) (x :: l).
