From Verif Require Import Py PathModel EnvModel ScriptModel ScriptSpec.

Section S.
  Context {S : Type}.
  Lemma exec_app (a b : list (stmt S)) s : exec (a ++ b) s = match exec a s with (s', Done) => exec b s' | x => x end.
  Proof. revert s. induction a as [|x a IH]; intros s; cbn [List.app exec]; [reflexivity|]. destruct (x s) as [s' [| |]]; [apply IH|reflexivity|reflexivity]. Qed.
  Lemma exec_runs (l : list (stmt S)) : forall s s', exec l s = (s', Done) <-> runs l s s'.
  Proof.
    induction l as [|x l IH]; intros s s'; cbn [exec].
    - split; [intros H; injection H as <-; constructor|intros H; now inversion H].
    - destruct (x s) as [s1 o] eqn:E. split.
      + destruct o; intros H; try discriminate. econstructor; [exact E|]. now apply IH.
      + intros H. inversion H; subst. match goal with K : x s = _ |- _ => rewrite E in K; injection K as -> -> end. now apply IH.
  Qed.
  Lemma exec_stops (l : list (stmt S)) s s' o : o <> Done -> exec l s = (s', o) <-> stops l s s' o.
  Proof.
    intros N. split.
    - revert s. induction l as [|x l IH]; intros s; cbn [exec]; [intros H; injection H as <- <-; congruence|].
      destruct (x s) as [s1 [| |n]] eqn:E; intros H.
      + apply IH in H. inversion H as [before y after ? s2 ? ? R Y D]; subst. apply (stops_at (x :: before) y after s s2); try assumption. econstructor; eassumption.
      + injection H as <- <-. apply (stops_at [] x l s s); [constructor|exact E|exact N].
      + injection H as <- <-. apply (stops_at [] x l s s); [constructor|exact E|exact N].
    - intros H. inversion H as [before x after ? s1 ? ? R X D]; subst. rewrite exec_app. apply exec_runs in R. rewrite R. cbn [exec]. rewrite X. destruct o; [congruence|reflexivity|reflexivity].
  Qed.
  Lemma file_runs (l : list (stmt S)) s s' : runs l s s' -> execute_file (Some (Program l)) s = (s', Returned).
  Proof. intros H. apply exec_runs in H. unfold execute_file, runsource. now rewrite H. Qed.
  Lemma file_raises (l : list (stmt S)) s s' : stops l s s' Raised -> execute_file (Some (Program l)) s = (s', Returned).
  Proof. intros H. apply exec_stops in H; [|discriminate]. unfold execute_file, runsource. now rewrite H. Qed.
  Lemma file_exits (l : list (stmt S)) s s' n : stops l s s' (Exits n) -> execute_file (Some (Program l)) s = (s', SysExit n).
  Proof. intros H. apply exec_stops in H; [|discriminate]. unfold execute_file, runsource. now rewrite H. Qed.
  Lemma exec_cases (l : list (stmt S)) s : (exists s', runs l s s') \/ (exists s', stops l s s' Raised) \/ (exists s' n, stops l s s' (Exits n)).
  Proof.
    destruct (exec l s) as [s' [| |n]] eqn:E.
    - left. exists s'. now apply exec_runs.
    - right. left. exists s'. now apply exec_stops.
    - right. right. exists s', n. now apply exec_stops.
  Qed.
  Lemma runs_not_stops (l : list (stmt S)) s s' s2 o : runs l s s' -> stops l s s2 o -> False.
  Proof. intros R T. assert (N : o <> Done) by now inversion T. apply exec_runs in R. apply (exec_stops l s s2 o N) in T. congruence. Qed.
  Lemma find_first ex ps file : forall p, find_file ex ps file = Some p <-> exists d, first_with (fun d => ex (path_join (match d with [] => t_dot | _ => d end) file) = true) ps d /\ p = path_join (match d with [] => t_dot | _ => d end) file.
  Proof.
    induction ps as [|q ps IH]; intros p; cbn [find_file].
    - split; [discriminate|]. intros (d & H & _). inversion H.
    - destruct (ex (path_join (match q with [] => t_dot | _ => q end) file)) eqn:E.
      + split; [intros H; injection H as <-; exists q; split; [now constructor|reflexivity]|].
        intros (d & H & ->). inversion H; subst; [reflexivity|congruence].
      + rewrite IH. split.
        * intros (d & H & ->). exists d. split; [|reflexivity]. constructor; [congruence|exact H].
        * intros (d & H & ->). inversion H; subst; [congruence|]. now exists d.
  Qed.
  Lemma find_none ex ps file : find_file ex ps file = None <-> forall d, In d ps -> ex (path_join (match d with [] => t_dot | _ => d end) file) = false.
  Proof.
    induction ps as [|q ps IH]; cbn [find_file].
    - split; [intros _ d []|reflexivity].
    - destruct (ex (path_join (match q with [] => t_dot | _ => q end) file)) eqn:E.
      + split; [discriminate|]. intros H. specialize (H q (or_introl eq_refl)). congruence.
      + rewrite IH. split; [intros H d [<-|I]; [exact E|now apply H]|intros H d I; apply H; now right].
  Qed.
End S.
Lemma split_on_no_dot : forall name, ~ In c_dot name -> split_on c_dot name = [name].
Proof.
  induction name as [|x name IH]; intros N; [reflexivity|]. cbn [split_on].
  destruct (N.eqb_spec x c_dot) as [->|_]; [exfalso; apply N; now left|]. rewrite IH by (intros I; apply N; now right). reflexivity.
Qed.
Lemma split_on_ne sep s : split_on sep s <> [].
Proof. induction s as [|c s IH]; cbn [split_on]; [discriminate|]. destruct (N.eqb c sep); [discriminate|]. destruct (split_on sep s); discriminate. Qed.
Lemma split_last_dot : forall q name, List.last (split_on c_dot (q ++ c_dot :: name)) [] = List.last (split_on c_dot name) [].
Proof.
  induction q as [|x q IH]; intros name.
  - cbn [List.app split_on]. rewrite N.eqb_refl. cbn [List.last]. destruct (split_on c_dot name) eqn:E; [exfalso; eapply split_on_ne; exact E|reflexivity].
  - cbn [List.app split_on]. specialize (IH name). destruct (N.eqb x c_dot).
    + cbn [List.last]. destruct (split_on c_dot (q ++ c_dot :: name)) eqn:E; [exfalso; eapply split_on_ne; exact E|exact IH].
    + assert (L : 2 <= List.length (split_on c_dot (q ++ c_dot :: name))).
      { clear. induction q as [|y q IH]; cbn [List.app split_on].
        - rewrite N.eqb_refl. cbn [List.length]. destruct (split_on c_dot name) eqn:E; [exfalso; eapply split_on_ne; exact E|cbn; lia].
        - destruct (N.eqb y c_dot); [cbn; lia|]. destruct (split_on c_dot (q ++ c_dot :: name)) as [|a l]; cbn in *; lia. }
      destruct (split_on c_dot (q ++ c_dot :: name)) as [|a [|b l]]; cbn in L; try lia. exact IH.
Qed.
Lemma last_name_ok : forall pre name, ~ In c_dot name -> pre = [] \/ (exists q, pre = q ++ [c_dot]) -> last_name (pre ++ name) = name.
Proof.
  intros pre name N [-> | [q ->]]; unfold last_name.
  - cbn [List.app]. now rewrite split_on_no_dot.
  - rewrite <- List.app_assoc. cbn [List.app]. rewrite split_last_dot. now rewrite split_on_no_dot.
Qed.
