(** C45 and C58: redirecting output to files. *)
From Verif Require Import Py RedirModel FileModel FileSpec FileProofs.

(** C45.  `cmd | "p"`, for every previous content and every sequence of writes:
    the file then begins with what cmd wrote, followed by what the old content
    had beyond that; no other file changes. *)
Theorem C45_result : forall f0 p r i es s, to_file p = Ok r -> only i es -> frun r (fstart f0) es = Some s ->
  old_content (f_fs s) p = output_of i es ++ skipn (List.length (output_of i es)) (old_content f0 p) /\
  forall q, q <> p -> f_fs s q = f0 q.
Proof. intros f0 p r i es s T O R. pose proof (pinv_run f0 p r es s T R) as [_ _ _ _ _ ONE OTH]. auto. Qed.
Print Assumptions C45_result.
(** So the claim holds if the old content is not longer than the output. *)
Theorem C45_replaced_partial : forall f0 p r i es s, to_file p = Ok r -> only i es -> frun r (fstart f0) es = Some s ->
  List.length (old_content f0 p) <= List.length (output_of i es) -> old_content (f_fs s) p = output_of i es.
Proof.
  intros f0 p r i es s T O R L. destruct (C45_result f0 p r i es s T O R) as [-> _]. rewrite skipn_all2 by exact L. apply app_nil_r.
Qed.
Print Assumptions C45_replaced_partial.
(** And it is false whenever the old content is longer. *)
Theorem C45_refuted : forall f0 p r i es s, to_file p = Ok r -> only i es -> frun r (fstart f0) es = Some s ->
  List.length (output_of i es) < List.length (old_content f0 p) -> old_content (f_fs s) p <> output_of i es.
Proof.
  intros f0 p r i es s T O R L E. destruct (C45_result f0 p r i es s T O R) as [X _]. rewrite X in E.
  apply (f_equal (@List.length N)) in E. rewrite app_length, skipn_length in E. lia.
Qed.
Print Assumptions C45_refuted.
(** With flags given explicitly, O_TRUNC replaces the content ... *)
Theorem C45_explicit_truncate : forall f0 p r i es s, r_source r = SPath p -> truncating (r_flag r) -> only i es -> es <> [] ->
  frun r (fstart f0) es = Some s -> f_fs s p = Some (output_of i es).
Proof. exact trunc_run. Qed.
Print Assumptions C45_explicit_truncate.
(** ... and O_APPEND keeps it and everything any of the processes wrote, in the
    order of the writes. *)
Theorem C45_explicit_append : forall f0 p r es s, r_source r = SPath p -> appending (r_flag r) -> frun r (fstart f0) es = Some s ->
  old_content (f_fs s) p = old_content f0 p ++ all_output es.
Proof. intros f0 p r es s S F R. now destruct (ainv_run f0 p r es s S F R). Qed.
Print Assumptions C45_explicit_append.

Definition f_log : path := PName "log".
Definition some_fs (old : list N) : fs := fset (fun _ => None) f_log old.
Definition get_red (x : res redirect) : redirect := match x with Ok r => r | Err _ => mkRedirect 0 SNone 0 0 None false end.
Example C45_nonvacuous :
  let es := [FOpen 3; FWrite 3 [1; 2]; FWrite 3 [3] ]%N in
  let fin old r := match frun r (fstart (some_fs old)) es with Some s => old_content (f_fs s) f_log | None => [] end in
  let flags fl := get_red (new_redirect (FdName "stdout") (SPath f_log) (Some fl) default_mode None false) in
  is_ok (to_file f_log) = true /\ only 3 es /\
  fin [9; 9; 9; 9; 9]%N (get_red (to_file f_log)) = [1; 2; 3; 9; 9]%N /\ fin [9]%N (get_red (to_file f_log)) = [1; 2; 3]%N /\
  truncating 577 /\ appending 1089 /\
  fin [9; 9; 9; 9; 9]%N (flags 577%N) = [1; 2; 3]%N /\ fin [9]%N (flags 1089%N) = [9; 1; 2; 3]%N.
Proof. cbv zeta. repeat split; try (vm_compute; reflexivity). repeat constructor. Qed.

(** C58.  Several processes started with the same file as output - as in
    (a + b) | "p" - each write from the beginning of the file: it never gets
    longer than the longest single output (or the old content) ... *)
Theorem C58_group_length : forall f0 p r es s, to_file p = Ok r -> frun r (fstart f0) es = Some s ->
  (forall i, List.length (output_of i es) <= List.length (old_content (f_fs s) p)) /\
  (List.length (old_content (f_fs s) p) = List.length (old_content f0 p) \/
   exists i, List.length (old_content (f_fs s) p) = List.length (output_of i es)).
Proof. intros f0 p r es s T R. pose proof (pinv_run f0 p r es s T R) as [_ _ LO _ HI _ _]. auto. Qed.
Print Assumptions C58_group_length.
(** ... so in every schedule output is lost as soon as two of them write into a
    new file. *)
Theorem C58_refuted : forall f0 p r es s i j, to_file p = Ok r -> frun r (fstart f0) es = Some s -> old_content f0 p = [] ->
  i <> j -> output_of i es <> [] -> output_of j es <> [] ->
  List.length (old_content (f_fs s) p) < List.length (all_output es).
Proof.
  intros f0 p r es s i j T R OLD NE Oi Oj. destruct (C58_group_length f0 p r es s T R) as [LO HI].
  assert (ALL : forall x y, x <> y -> List.length (output_of x es) + List.length (output_of y es) <= List.length (all_output es)).
  { intros x y XY. clear - XY. unfold output_of, all_output. induction es as [|e es IH]; cbn; [lia|]. destruct e as [k|k d]; cbn; [exact IH|].
    rewrite !app_length. destruct (Nat.eqb_spec k x), (Nat.eqb_spec k y); cbn; try congruence; lia. }
  assert (POS : forall l : list N, l <> [] -> 0 < List.length l) by (intros [|a l] H; cbn; [congruence|lia]).
  pose proof (POS _ Oi). pose proof (POS _ Oj). pose proof (ALL i j NE). rewrite OLD in HI. cbn in HI.
  destruct HI as [HI|[k HI] ]; [lia|]. destruct (Nat.eq_dec k i) as [->|Ki].
  - lia.
  - pose proof (ALL k i Ki). lia.
Qed.
Print Assumptions C58_refuted.
Example C58_nonvacuous :
  let es := [FOpen 0; FOpen 1; FWrite 0 [1; 1; 1]; FWrite 1 [2; 2] ]%N in
  match frun (get_red (to_file f_log)) (fstart (fun _ => None)) es with Some s => old_content (f_fs s) f_log | None => [] end = [2; 2; 1]%N.
Proof. vm_compute. reflexivity. Qed.
