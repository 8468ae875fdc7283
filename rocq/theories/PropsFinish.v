(** C28: what the clean-up at the end of a pipeline does. *)
From Verif Require Import Py RedirModel IterModel Utf8Model Utf8Spec FinishModel FinishSpec FinishProofs.
From Verif Require Os RunModel RunTopSpec PropsRun.

(** C28: when the clean-up ends without exception every item has, for each of
    its STRING descriptors, the text of the file (as text mode reads it), also
    when a file is used by several items; all these files are gone; nothing else
    changed. *)
Theorem C28_output_recorded : forall f its f' its', well_formed its -> finish f its = (f', its', None) ->
  List.length its' = List.length its /\
  (forall n it it', nth_error its n = Some it -> nth_error its' n = Some it' ->
     (forall fd k, captures it fd k -> exists t, holds f k t /\ dget (it_content it') fd = Some (universal_newlines t)) /\
     (forall fd, (forall k, ~ captures it fd k) -> dget (it_content it') fd = dget (it_content it) fd)) /\
  (forall k, (exists it fd, In it its /\ captures it fd k) -> f' k = None) /\
  (forall k, (forall it fd, In it its -> ~ captures it fd k) -> f' k = f k).
Proof. exact finish_recorded. Qed.
Print Assumptions C28_output_recorded.
(** It raises exactly when a STRING file is missing or not UTF-8, and then no
    file is removed. *)
Theorem C28_no_exception_iff : forall f its, well_formed its ->
  (snd (finish f its) = None <-> forall it fd k, In it its -> captures it fd k -> exists t, holds f k t).
Proof. exact finish_ok_iff. Qed.
Print Assumptions C28_no_exception_iff.
Theorem C28_failed_removes_nothing : forall f its f' its' x, finish f its = (f', its', Some x) -> f' = f.
Proof. exact finish_failed_keeps. Qed.
Print Assumptions C28_failed_removes_nothing.
(** The text is the file's own text when it has no carriage return; carriage
    returns never survive. *)
Theorem C28_text_mode : forall t, (no_cr t -> universal_newlines t = t) /\ no_cr (universal_newlines t).
Proof. exact (fun t => conj (no_cr_same t) (universal_no_cr t)). Qed.
Print Assumptions C28_text_mode.
(** C51: remove_output_files removes the TMP files and nothing else when no two
    descriptors share one and all exist ... *)
Theorem C51_remove_own_files_partial : forall f its, well_formed its -> own_files its -> (forall it fd k, In it its -> saves it fd k -> f k <> None) ->
  exists f', remove_output_files f its = (f', None) /\
    (forall k, (exists it fd, In it its /\ saves it fd k) -> f' k = None) /\
    (forall k, (forall it fd, In it its -> ~ saves it fd k) -> f' k = f k).
Proof. exact remove_ok. Qed.
Print Assumptions C51_remove_own_files_partial.
(** ... but always raises when two items share one. *)
Theorem C51_shared_file_refuted : forall f its n m it1 it2 fd1 fd2 k, well_formed its -> n <> m ->
  nth_error its n = Some it1 -> nth_error its m = Some it2 -> saves it1 fd1 k -> saves it2 fd2 k ->
  snd (remove_output_files f its) = Some FileNotFoundError.
Proof. exact (fun f its n m it1 it2 fd1 fd2 k W Ne N1 N2 S1 S2 => remove_shared f its (shared_not_own its n m it1 it2 fd1 fd2 k W Ne N1 N2 S1 S2)). Qed.
Print Assumptions C51_shared_file_refuted.

(** Sharing happens: the items started by [a(b) | Redirect("stderr", S)]. *)
Definition as_item (i : RunModel.item) : item :=
  match i with
  | RunModel.IProc rs _ _ => mkItem false rs []
  | RunModel.IFun _ _ rs => mkItem false rs []
  end.
Definition with_argument (s : source) : list item :=
  match RunTopSpec.start PropsRun.some_limits (fun _ => true) false
          (RunModel.PRedir (RunModel.PCmd [RunModel.AWord "a"; RunModel.APipeline (RunModel.PCmd [RunModel.AWord "b"])])
             [(2, mkRedirect 2 s (N.lor O_WRONLY O_CREAT) default_mode None false)]) PropsRun.shell with
  | (_, Ok (_, its)) => map as_item its
  | _ => []
  end.
Definition files (l : list (nat * bytes)) : fs := fun k => dget l k.
Lemma with_argument_wf s : In s [STMP; SSTRING] -> well_formed (with_argument s).
Proof. intros [<-|[<-|[]]]; vm_compute; repeat constructor; cbn; intuition discriminate. Qed.
Example C28_nonvacuous :
  (exists it1 it2, with_argument SSTRING = [it1; it2] /\ captures it1 2 0 /\ captures it2 2 0) /\
  let '(f', its', e) := finish (files [(0, [104; 105; 13; 10]%N); (1, [0%N])]) (with_argument SSTRING) in
  e = None /\ f' 0 = None /\ f' 1 = Some [0%N] /\
  map it_content its' = [[(2, [104; 105; 10]%N)]; [(2, [104; 105; 10]%N)]].
Proof.
  split; [|vm_compute; auto]. eexists _, _. split; [vm_compute; reflexivity|].
  split; (split; [reflexivity|eexists; split; vm_compute; reflexivity]).
Qed.
Example C51_nonvacuous :
  (exists it1 it2, with_argument STMP = [it1; it2] /\ saves it1 2 0 /\ saves it2 2 0) /\
  snd (remove_output_files (files [(0, [])]) (with_argument STMP)) = Some FileNotFoundError.
Proof.
  split; [|vm_compute; reflexivity]. eexists _, _. split; [vm_compute; reflexivity|].
  split; (split; [reflexivity|eexists; split; vm_compute; reflexivity]).
Qed.
