(** Model of /repo/pieshell/ps.py:9-31 cmdline2pieshell and of the first part of
    PstreeProcess.__repr__ (ps.py:98-101): how a running process is printed.
    [slug] is slugify.slugify(_, separator="_") of the package python-slugify;
    nothing is assumed about it here. *)
From Verif Require Import Py PathModel EnvModel ExpandModel CommandModel ReprModel.

Section Ps.
  Context (printable : N -> bool) (slug : text -> text).

  (** ps.py:19,22 item.startswith(p) *)
  Fixpoint starts (p t : text) : bool :=
    match p, t with
    | [], _ => true
    | _, [] => false
    | a :: p', b :: t' => N.eqb a b && starts p' t'
    end.
  (** ps.py:20 item[2:].split("=", 1); [None] if there is no "=" (ps.py:19 tests the
      whole item, which begins with "--", so the test is the same). *)
  Fixpoint split_eq (t : text) : option (text * text) :=
    match t with
    | [] => None
    | c :: r => if N.eqb c 61 then Some ([], r)
                else match split_eq r with Some (k, v) => Some (c :: k, v) | None => None end
    end.
  (** ps.py:21 kwargs[k] = v: a python dict keeps the place of the first
      assignment. *)
  Fixpoint dict_set (k v : text) (d : list (text * text)) : list (text * text) :=
    match d with
    | [] => [(k, v)]
    | (k', v') :: d' => if text_eqb k k' then (k, v) :: d' else (k', v') :: dict_set k v d'
    end.
  (** ps.py:10-13 the local variables *)
  Record ps := mkPs { ps_param : bool; ps_names : list text; ps_args : list text; ps_kw : list (text * text) }.
  (** ps.py:14-25 the body of the loop *)
  Definition ps_item (s : ps) (item : text) : ps :=
    let param := ps_param s || negb (text_eqb (slug item) item) in
    if negb param then mkPs param (ps_names s ++ [item]) (ps_args s) (ps_kw s)
    else match (if starts (txt "--") item then split_eq (skipn 2 item) else None) with
         | Some (k, v) => mkPs param (ps_names s) (ps_args s) (dict_set k v (ps_kw s))
         | None =>
             if starts (txt "-") item && negb (starts (txt "--") item)
             then mkPs param (ps_names s) (ps_args s ++ [item]) (ps_kw s)
             else mkPs param (ps_names s) (ps_args s ++ [repr_str printable item]) (ps_kw s)
         end.
  (** ps.py:9-31 cmdline2pieshell *)
  Definition cmdline2pieshell (cmdline : list text) : text :=
    let s := fold_left ps_item cmdline (mkPs false [] [] []) in
    let names := match ps_names s with [] => [txt "_"] | l => l end in
    let items := ps_args s ++ map (fun kv => fst kv ++ txt "=" ++ snd kv) (ps_kw s) in
    match items with
    | [] => join_with (txt ".") names
    | _ => join_with (txt ".") names ++ txt "(" ++ join_with (txt ", ") items ++ txt ")"
    end.
End Ps.
