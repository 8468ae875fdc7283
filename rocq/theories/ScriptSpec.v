(** Executing statements one after the other, independently of the model. *)
From Verif Require Import Py ScriptModel.

(** [runs l s s']: all statements end normally and lead from [s] to [s']. *)
Inductive runs {S} : list (stmt S) -> S -> S -> Prop :=
| runs_nil s : runs [] s s
| runs_cons x l s s1 s' : x s = (s1, Done) -> runs l s1 s' -> runs (x :: l) s s'.
(** [stops l s s' o]: some statement ends with [o], not normally, in state [s'],
    after those before it ended normally. *)
Inductive stops {S} : list (stmt S) -> S -> S -> outcome -> Prop :=
| stops_at before x after s s1 s' o : runs before s s1 -> x s1 = (s', o) -> o <> Done -> stops (before ++ x :: after) s s' o.
(** The first of [l] with property [P]. *)
Inductive first_with {A} (P : A -> Prop) : list A -> A -> Prop :=
| fw_here x l : P x -> first_with P (x :: l) x
| fw_later x l y : ~ P x -> first_with P l y -> first_with P (x :: l) y.
