(** C78: a command inserted in a word runs once each time the pipeline is run. *)
From Verif Require Import Py InsertModel InsertSpec InsertProofs.

(** Without insertions every command of the pipeline, and nothing else, is
    started, exactly once. *)
Theorem C78_plain_partial : forall p, (forall q, ~ inserts p q) -> began p = commands p.
Proof. exact plain_once. Qed.
Print Assumptions C78_plain_partial.
(** But every command inserted anywhere is started at least three times ... *)
Theorem C78_inserted_refuted : forall p q x, inserts p q -> In x (commands q) -> 3 <= times x (began p).
Proof. exact thrice. Qed.
Print Assumptions C78_inserted_refuted.
(** ... exactly 3 + k times, if there are k operators around the command it is
    inserted in (and once more whenever the pipeline is printed) ... *)
Theorem C78_how_often : forall x k p, inserted_below x k p -> times x (began p) = 3 + k /\ times x (shown p) = 1.
Proof. exact below_times. Qed.
Print Assumptions C78_how_often.
(** ... and 3 to the power k times if the insertions are nested k deep. *)
Theorem C78_nested : forall k x, times x (began (nested k x)) = 3 ^ k.
Proof. exact nested_times. Qed.
Print Assumptions C78_nested.
(** echo("%(date)s") | cat > file, and (ls | wc) + f(sort). *)
Example C78_nonvacuous :
  inserted_below 7 2 (IRedir (IPipe (ICmd 1 [IStr []; IStr [ICmd 7 []]]) (ICmd 2 []))) /\
  began (IRedir (IPipe (ICmd 1 [IStr []; IStr [ICmd 7 []]]) (ICmd 2 []))) = [7; 7; 7; 7; 7; 1; 2] /\
  inserts (IRedir (IPipe (ICmd 1 [IStr []; IStr [ICmd 7 []]]) (ICmd 2 []))) (ICmd 7 []) /\
  began (IGroup (IPipe (ICmd 1 [IStr []]) (ICmd 2 [])) (ICmd 3 [ISub (ICmd 4 []); IOther])) = [1; 2; 4; 3] /\
  times 5 (began (nested 3 5)) = 27.
Proof.
  split; [|vm_compute; repeat split; try reflexivity].
  - apply below_redir. apply below_pipe_l.
    + apply (below_cmd 7 1 [IStr []] []). intros M. inversion M; subst; try (repeat match goal with H : In _ _ |- _ => destruct H as [H|H]; try discriminate H; try contradiction H end;
        match goal with H : IStr _ = IStr _ |- _ => injection H as <- end; match goal with H : In _ [] |- _ => destruct H end).
    + intros M. inversion M; subst; match goal with H : In _ [] |- _ => destruct H end.
  - apply ins_redir. apply ins_pipe_l. eapply ins_word; [right; left; reflexivity|left; reflexivity].
Qed.
