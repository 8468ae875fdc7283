(** Model of the command line of the pieshell program, main()
    (/repo/pieshell/shell.py:17-80), and of the remote builtin (Remote._run,
    pipeline/builtins.py:196-206) with the standard library's base64. *)
From Verif Require Import Py PathModel EnvModel ExpandModel CommandModel BashModel.

(** ** base64.b64encode (RFC 4648) *)
Definition b64char (n : N) : N :=
  if (n <? 26)%N then (65 + n)%N else if (n <? 52)%N then (71 + n)%N else if (n <? 62)%N then (n - 4)%N
  else if N.eqb n 62 then 43%N else 47%N.
Definition c_pad : N := 61%N.
Fixpoint b64encode (b : list N) : text :=
  match b with
  | [] => []
  | [x] => [b64char (x / 4); b64char ((x mod 4) * 16); c_pad; c_pad]%N
  | [x; y] => [b64char (x / 4); b64char ((x mod 4) * 16 + y / 16); b64char ((y mod 16) * 4); c_pad]%N
  | x :: y :: z :: r =>
      ([b64char (x / 4); b64char ((x mod 4) * 16 + y / 16); b64char ((y mod 16) * 4 + z / 64); b64char (z mod 64)]%N) ++ b64encode r
  end.
(** base64.b64decode, i.e. binascii.a2b_base64 without strict mode: characters
    outside the alphabet are skipped, a completed padding ends the input.
    [quad], [left], [pads]: its quad_pos, leftchar and pads. *)
Definition b64val (c : N) : option N :=
  if ((65 <=? c) && (c <=? 90))%N then Some (c - 65)%N
  else if ((97 <=? c) && (c <=? 122))%N then Some (c - 71)%N
  else if ((48 <=? c) && (c <=? 57))%N then Some (c + 4)%N
  else if N.eqb c 43 then Some 62%N else if N.eqb c 47 then Some 63%N else None.
Fixpoint a2b (t : text) (quad : nat) (left : N) (pads : nat) : res (list N) :=
  match t with
  | [] => match quad with 0 => Ok [] | _ => Err ValueError end
  | c :: r =>
      if N.eqb c c_pad then
        if (2 <=? quad) && (4 <=? quad + S pads) then Ok [] else a2b r quad left (S pads)
      else match b64val c with
           | None => a2b r quad left pads
           | Some v =>
               match quad with
               | 0 => a2b r 1 v 0
               | 1 => let* l := a2b r 2 (v mod 16)%N 0 in Ok ((left * 4 + v / 16)%N :: l)
               | 2 => let* l := a2b r 3 (v mod 4)%N 0 in Ok ((left * 16 + v / 4)%N :: l)
               | _ => let* l := a2b r 0 0%N 0 in Ok ((left * 64 + v)%N :: l)
               end
           end
  end.
Definition b64decode (t : text) : res (list N) := a2b t 0 0%N 0.

(** ** shell.py:18-30: options and arguments *)
Inductive kwv := KvTrue | KvStr (t : text).
Definition option_of (a : text) : text * kwv :=
  let a' := skipn 2 a in
  if mem 61%N a' then let '(n, v) := split_eq a' in (n, KvStr v) else (a', KvTrue).
Fixpoint read_argv (argv : list text) (args : list text) (kws : dict text kwv) : list text * dict text kwv :=
  match argv with
  | [] => (args, kws)
  | a :: r => if startswith a (txt "--") then let '(n, v) := option_of a in read_argv r args (dset kws n v)
              else read_argv r (args ++ [a]) kws
  end.
Definition truthy (o : option kwv) : bool :=
  match o with None => false | Some KvTrue => true | Some (KvStr []) => false | Some (KvStr _) => true end.

(** ** shell.py:32-80: what is done.  [main_log]: 62-64, the module pieshell.log
    has no attribute debug (log.py), and True has no split. *)
Inductive what := WExpr (t : text) | WPickled (b : list N) | WFiles (fs : list text) | WShell (ptpython : bool).
Inductive action := AHelp | AVersion | ARun (startup : bool) (w : res what).
Definition main_log (o : option kwv) : res unit := match o with None => Ok tt | Some _ => Err AttributeError end.
Definition main (argv : list text) : res action :=
  let '(args, kws) := read_argv argv [] [] in
  let get n := dget kws (txt n) in
  if truthy (get "help"%string) then Ok AHelp
  else if truthy (get "version"%string) then Ok AVersion
  else
    let* _ := main_log (get "log"%string) in
    Ok (ARun (negb (truthy (get "no-startup"%string)))
          match get "cmd"%string with
          | Some (KvStr t) => Ok (WExpr t)
          | Some KvTrue => Err AttributeError
          | None =>
              match get "pcmd"%string with
              | Some (KvStr t) => if forallb (fun c => (c <? 128)%N) t then let* b := b64decode t in Ok (WPickled b) else Err UnicodeEncodeError
              | Some KvTrue => Err AttributeError
              | None => match args with [] => Ok (WShell (truthy (get "ptpython"%string))) | _ => Ok (WFiles args) end
              end
          end).

(** ** builtins.py:199-206 Remote._run: the arguments of ssh; [pickled] is
    pickle.dumps of the last argument. *)
Definition sshcmd (pickled : list N) : text := txt "pieshell --pcmd='" ++ b64encode pickled ++ txt "'".
Definition remote_args (middle : list arg) (pickled : list N) : list arg := AStr (txt "ssh") :: middle ++ [AStr (sshcmd pickled)].
