(** C41: running a pipeline works on a copy. *)
From Verif Require Import Py CopyModel CopySpec CopyProofs.

(** A copy looks like the original at every position. *)
Theorem C41_same_structure : forall d s r s' c, closed (c_heap s) -> r < List.length (c_heap s) -> idle s ->
  deepcopy d s r = Some (s', c) -> mirrors (c_heap s) r (c_heap s') c.
Proof. intros d s r s' c C L I E. now destruct (deepcopy_copied _ _ _ _ _ C L I E) as [ [ ] _]. Qed.
Print Assumptions C41_same_structure.
(** No pipeline object, list, tuple or dictionary in it existed before. *)
Theorem C41_shares_nothing : forall d s r s' c p y o, closed (c_heap s) -> r < List.length (c_heap s) -> idle s ->
  deepcopy d s r = Some (s', c) -> at_path (c_heap s') c p = Some y -> nth_error (c_heap s') y = Some o -> container o ->
  List.length (c_heap s) <= y.
Proof. intros d s r s' c p y o C L I E. destruct (deepcopy_copied _ _ _ _ _ C L I E) as [ [_ _ _ _ F _] _]. apply F. Qed.
Print Assumptions C41_shares_nothing.
(** Two different positions of the copy are different objects, even if the
    original had one object in both. *)
Theorem C41_positions_distinct : forall d s r s' c p q y o, closed (c_heap s) -> r < List.length (c_heap s) -> idle s ->
  deepcopy d s r = Some (s', c) -> at_path (c_heap s') c p = Some y -> at_path (c_heap s') c q = Some y ->
  nth_error (c_heap s') y = Some o -> container o -> p = q.
Proof. intros d s r s' c p q y o C L I E. destruct (deepcopy_copied _ _ _ _ _ C L I E) as [ [_ _ _ _ _ D] _]. apply D. Qed.
Print Assumptions C41_positions_distinct.
(** Running leaves every object that existed before as it was, and copy_state
    too: run() can be repeated. *)
Theorem C41_originals_unchanged : forall d s r s' c, closed (c_heap s) -> r < List.length (c_heap s) -> idle s -> run_pipeline d s r = Some (s', c) ->
  (forall m, m < List.length (c_heap s) -> nth_error (c_heap s') m = nth_error (c_heap s) m) /\ c_cur s' = c_cur s.
Proof. exact run_originals. Qed.
Print Assumptions C41_originals_unchanged.
(** One new object is run for each position that runs in the original, none
    twice. *)
Theorem C41_runs_each_position_once : forall d s r s' c, closed (c_heap s) -> r < List.length (c_heap s) -> idle s -> run_pipeline d s r = Some (s', c) ->
  exists ran, NoDup ran /\ List.length ran = List.length (run_order d (c_heap s) r) /\
    (forall m, List.length (c_heap s) <= m -> (started (c_heap s') m <-> In m ran)) /\
    (forall m, In m ran -> List.length (c_heap s) <= m).
Proof. exact run_once. Qed.
Print Assumptions C41_runs_each_position_once.
(** Copying succeeds exactly if the objects are not nested deeper than the
    recursion limit allows; so it fails for a list that contains itself. *)
Theorem C41_succeeds_iff : forall d s r, closed (c_heap s) -> r < List.length (c_heap s) -> idle s ->
  (deepcopy d s r <> None <-> depth_below (c_heap s) r d).
Proof. exact deepcopy_total. Qed.
Print Assumptions C41_succeeds_iff.

(** p = env.cat("x", [1, "y"], opts=env.echo); p | p, with p used twice. *)
Definition a_heap : heap :=
  [ OOther 0                                   (* 0: the environment *)
  ; OStr true (List.map N.of_nat [99; 97; 116])          (* 1: "cat" *)
  ; OOther 1                                   (* 2 *)
  ; OSeq TList [2; 1]                          (* 3: a list argument *)
  ; OStr true (List.map N.of_nat [111])                  (* 4: "o" *)
  ; OSeq TList [1]                             (* 5 *)
  ; ONode NCommand 0 [5] false                 (* 6: env.cat *)
  ; ODict [(4, 6)]                             (* 7: {"o": env.cat} *)
  ; OSeq TList [1; 3; 7; 6]                    (* 8 *)
  ; ONode NCommand 0 [8] true                  (* 9: p, already run once *)
  ; ONode NPipe 0 [9; 9] false                 (* 10: p | p *)
  ; OSeq TList [11] ].                         (* 11: a list containing itself *)
Definition a_state : cst := mkC a_heap [] None.
Lemma a_heap_ok : closed (c_heap a_state) /\ idle a_state /\ 10 < List.length (c_heap a_state).
Proof.
  split; [|split; [exact Logic.I|cbn; lia] ]. intros r c. cbn [c_heap a_state].
  intros H. pose proof (children_lt _ _ _ H) as L. cbn in L. do 12 (destruct r as [|r]; [revert H; cbn; intuition lia|]). lia.
Qed.
Example C41_nonvacuous : exists s' c s2 c2, deepcopy 10 a_state 10 = Some (s', c) /\ run_pipeline 10 a_state 10 = Some (s2, c2) /\
  at_path (c_heap s') c [0] <> at_path (c_heap s') c [1] /\ at_path a_heap 10 [0] = at_path a_heap 10 [1] /\
  at_path (c_heap s') c [0; 0; 3] <> at_path (c_heap s') c [0; 0; 2; 1] /\
  run_order 10 a_heap 10 = [ []; [0]; [0; 0; 2; 1]; [0; 0; 3]; [1]; [1; 0; 2; 1]; [1; 0; 3] ].
Proof.
  destruct (deepcopy 10 a_state 10) as [ [s' c]|] eqn:E; [|vm_compute in E; discriminate].
  destruct (run_pipeline 10 a_state 10) as [ [s2 c2]|] eqn:F; [|vm_compute in F; discriminate].
  exists s', c, s2, c2. vm_compute in E. injection E as <- <-. vm_compute. repeat split; discriminate.
Qed.
Theorem C41_cycle_fails : forall d, deepcopy d a_state 11 = None.
Proof.
  intros d. destruct (deepcopy d a_state 11) eqn:E; [|reflexivity]. exfalso. destruct a_heap_ok as (C & I & L).
  assert (D : depth_below (c_heap a_state) 11 d) by (apply (proj1 (deepcopy_total d a_state 11 C ltac:(cbn; lia) I)); congruence).
  assert (A : forall n, at_path a_heap 11 (repeat 0 n) = Some 11) by (induction n; [reflexivity|exact IHn]).
  specialize (D (repeat 0 d) 11 (A d)). rewrite repeat_length in D. lia.
Qed.
Print Assumptions C41_cycle_fails.
