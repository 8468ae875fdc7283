(** Model of /repo/pieshell/pipeline/command.py:251-302, Command.__signature__: the
    keyword parameters a command offers (to completion, inspect.signature and
    help()), read off the output of [command --help].  [help] is that output,
    str(self("--help")). *)
From Verif Require Import Py PathModel.

Section Help.
  (** [space]: what python's \s matches.  [annotates name values]: computing the
      annotation from the set of values (command.py:269-291: enum.Enum,
      typing.Union) ends without an exception; otherwise [types] is still a set
      and [types[0]] raises TypeError (command.py:298).  [refused name]:
      inspect.Parameter raises ValueError for the name (python 3.11 and later: the
      keywords). *)
  Context (space : N -> bool) (annotates : text -> list text -> bool) (refused : text -> bool).

  Definition letterc (c : N) : bool := ((65 <=? c) && (c <=? 90))%N || ((97 <=? c) && (c <=? 122))%N.
  (** [-a-zA-Z] *)
  Definition namec (c : N) : bool := N.eqb c 45 || letterc c.
  Fixpoint span (p : N -> bool) (t : text) : text * text :=
    match t with
    | [] => ([], [])
    | c :: r => if p c then let (a, b) := span p r in (c :: a, b) else ([], t)
    end.
  (** command.py:257 the second group, ([\[]?=[^\s\n]* )? *)
  Definition value_at (t : text) : text * text :=
    match t with
    | 91 :: 61 :: r => let (v, z) := span (fun c => negb (space c) && negb (N.eqb c 10)) r in (91 :: 61 :: v, z)
    | 61 :: r => let (v, z) := span (fun c => negb (space c) && negb (N.eqb c 10)) r in (61 :: v, z)
    | _ => ([], t)
    end%N.
  (** command.py:257 \s+(--[a-zA-Z][-a-zA-Z]+)([\[]?=[^\s\n]* )? at the beginning of
      [t].  The repetitions are greedy; giving back characters never helps, since
      neither a space nor a name character can begin what follows.  The result has
      the name without its dashes (command.py:258 param[2:]). *)
  Definition match_at (t : text) : option (text * text * text) :=
    let (sp, r) := span space t in
    match sp, r with
    | _ :: _, 45 :: 45 :: c :: r' =>
        if letterc c then
          let (nm, z) := span namec r' in
          match nm with
          | [] => None
          | _ => let (v, z') := value_at z in Some (c :: nm, v, z')
          end
        else None
    | _, _ => None
    end%N.
  (** command.py:257 re.findall: from left to right, going on behind each match;
      [n] bounds the number of steps. *)
  Fixpoint findall (n : nat) (t : text) : list (text * text) :=
    match n, t with
    | S m, c :: r => match match_at t with
                     | Some (nm, v, z) => (nm, v) :: findall m z
                     | None => findall m r
                     end
    | _, _ => []
    end.
  (** command.py:258 .replace("-", "_") *)
  Definition underscores (t : text) : text := map (fun c => if N.eqb c 45 then 95%N else c) t.
  (** command.py:264 .strip(" .") and 265 .lstrip("=") *)
  Fixpoint lstrip (p : N -> bool) (t : text) : text :=
    match t with c :: r => if p c then lstrip p r else t | [] => [] end.
  Definition strip (p : N -> bool) (t : text) : text := rev (lstrip p (rev (lstrip p t))).
  Definition cleaned (v : text) : text :=
    lstrip (fun c => N.eqb c 61) (strip (fun c => N.eqb c 32 || N.eqb c 46) v).
  (** command.py:259-266: the values one occurrence adds (value[1:-1] of [=X]) *)
  Definition added (v : text) : list text :=
    match v with
    | 91%N :: r => [[]; cleaned (removelast r)]
    | _ => [cleaned v]
    end.
  (** params[param] as a dict of lists of values (duplicates do not matter) *)
  Fixpoint add_param (p : text) (vs : list text) (d : list (text * list text)) : list (text * list text) :=
    match d with
    | [] => [(p, vs)]
    | (q, ws) :: d' => if text_eqb p q then (q, ws ++ vs) :: d' else (q, ws) :: add_param p vs d'
    end.
  Definition params_of (l : list (text * text)) : list (text * list text) :=
    fold_left (fun d nv => add_param (underscores (fst nv)) (added (snd nv)) d) l [].
  (** command.py:268-302; the names of the parameters, in order *)
  Fixpoint check_params (d : list (text * list text)) : res (list text) :=
    match d with
    | [] => Ok []
    | (p, vs) :: d' => if negb (annotates p vs) then Err TypeError
                       else if refused p then Err ValueError
                       else let* r := check_params d' in Ok (p :: r)
    end.
  Definition signature (help : text) : res (list text) := check_params (params_of (findall (List.length help) help)).
End Help.
