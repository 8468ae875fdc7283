(** Model of the operators of pipelines (/repo/pieshell/pipeline/base.py:90-138)
    under python's rules for reflected operators, chained comparisons and
    precedence. *)
From Verif Require Import Py RedirModel RunModel.

(** Operands.  [OStr]: str; bytes and PurePath are treated alike by _coerce.
    [OFunc]: function or method; [OIter]: anything else with __iter__ or __next__
    (lists, generators, R(...)).  [OOther]: any other object (an int ...).
    [OHalf]: a pipeline with a member that is no pipeline (base.py:136-138). *)
Inductive obj := OPl (p : pl) | OStr (s : string) | ONone | OBool (b : bool) | ORedirect (r : redirect) | ORedirects (rs : redirects)
  | OFunc | OIter | OOther | OHalf.

(** base.py:90-104 _coerce *)
Definition coerce (o : obj) (direction : string) : res (pl + redirects) :=
  let named f := let* r := new_redirect (FdName direction) (SPath (PName f)) None default_mode None false in
                 let* rs := new_redirects [IRedirect r] in Ok (inr rs) in
  match o with
  | ONone => named "/dev/null"%string
  | OStr f => named f
  | ORedirect r => let* rs := new_redirects [IRedirect r] in Ok (inr rs)
  | ORedirects rs => Ok (inr rs)
  | OPl p => Ok (inl p)
  | OFunc => Ok (inl (PFun true))
  | OIter => Ok (inl (PFun false))
  | _ => Err ValueError
  end.
(** base.py:115-126 __or__ *)
Definition or_method (p : pl) (o : obj) : res obj :=
  match o with
  | OBool true => Ok (OPl p)
  | OHalf => Ok OHalf
  | _ => let* c := coerce o "stdout" in Ok (OPl match c with inr rs => PRedir p rs | inl q => PPipe p q end)
  end.
(** base.py:105-114 __ror__ *)
Definition ror_method (p : pl) (o : obj) : res obj :=
  let* c := coerce o "stdin" in Ok (OPl match c with inr rs => PRedir p rs | inl q => PPipe q p end).
(** a | b: the left operand's __or__, else the right operand's __ror__ *)
Definition py_or (a b : obj) : res obj :=
  match a, b with
  | OPl p, _ => or_method p b
  | OHalf, _ => Ok OHalf
  | _, OPl q => ror_method q a
  | _, OHalf => Ok OHalf
  | _, _ => Err TypeError
  end.
(** a > b: base.py:130-132 __gt__, or the reflected __lt__ of the right operand
    (133-135), which both are a | b; otherwise python's comparison of strings. *)
Definition py_gt (a b : obj) : res obj :=
  match a, b with
  | OPl _, _ | OHalf, _ | _, OPl _ | _, OHalf => py_or a b
  | OStr s, OStr t => Ok (OBool (String.ltb t s))
  | _, _ => Err TypeError
  end.
Definition py_lt (a b : obj) : res obj := py_gt b a.
(** a + b: base.py:136-138; there is no __radd__ *)
Definition py_add (a b : obj) : res obj :=
  match a, b with
  | OPl p, OPl q => Ok (OPl (PGroup p q))
  | OPl _, _ | OHalf, _ => Ok OHalf
  | _, _ => Err TypeError
  end.

(** Expressions as python sees them, with chained comparisons. *)
Inductive cmp := Less | More.
Inductive ex := EObj (o : obj) | EOr (a b : ex) | EAdd (a b : ex) | ECmp (a : ex) (l : list (cmp * ex)).
Definition truth (o : obj) : bool := match o with ONone | OBool false | OStr ""%string => false | _ => true end.
Definition py_cmp (c : cmp) : obj -> obj -> res obj := match c with Less => py_lt | More => py_gt end.
Fixpoint eval (e : ex) : res obj :=
  match e with
  | EObj o => Ok o
  | EOr a b => let* x := eval a in let* y := eval b in py_or x y
  | EAdd a b => let* x := eval a in let* y := eval b in py_add x y
  | ECmp a l =>
      let* x := eval a in
      (fix chain (x : obj) (l : list (cmp * ex)) : res obj :=
         match l with
         | [] => Ok x
         | [(c, b)] => let* y := eval b in py_cmp c x y
         | (c, b) :: l' => let* y := eval b in let* r := py_cmp c x y in if truth r then chain y l' else Ok r
         end) x l
  end.
(** A line without parentheses: an operand and operators with operands.  Python's
    precedence: + binds strongest, then |, then the comparisons. *)
Inductive oper := Bar | Plus | Cmp (c : cmp).
Definition close_or (acc : option ex) (e : ex) : ex := match acc with None => e | Some a => EOr a e end.
Definition close_cmp (acc : option (ex * list (cmp * ex) * cmp)) (e : ex) : ex :=
  match acc with None => e | Some (a, l, c) => ECmp a (l ++ [(c, e)]) end.
Definition more_cmp (acc : option (ex * list (cmp * ex) * cmp)) (e : ex) (c : cmp) : ex * list (cmp * ex) * cmp :=
  match acc with None => (e, [], c) | Some (a, l, c0) => (a, l ++ [(c0, e)], c) end.
Fixpoint parse (cs : option (ex * list (cmp * ex) * cmp)) (os : option ex) (e : ex) (l : list (oper * obj)) : ex :=
  match l with
  | [] => close_cmp cs (close_or os e)
  | (Plus, o) :: r => parse cs os (EAdd e (EObj o)) r
  | (Bar, o) :: r => parse cs (Some (close_or os e)) (EObj o) r
  | (Cmp c, o) :: r => parse (Some (more_cmp cs (close_or os e) c)) None (EObj o) r
  end.
Definition line (first : obj) (l : list (oper * obj)) : res obj := eval (parse None None (EObj first) l).
