(** C118 for commands: where the command ends and its redirects begin. *)
From Coq Require Import Ascii Permutation.
From Verif Require Import Py RedirModel RedirProofs StatusModel StatusProofs RShowModel RShowSpec RShowProofs PropsRShow.
Local Open Scope string_scope.

Definition nonblank (a : ascii) : bool := negb (is " " a).
(** The words of a text *)
Fixpoint words (s : string) : list string :=
  match s with "" => [""] | String a r => if nonblank a then match words r with w :: l => String a w :: l | [] => [String a ""] end else "" :: words r end.
Lemma words_some s : words s <> [].
Proof. destruct s as [|a s]; cbn [words]; [discriminate|]. destruct (nonblank a); [destruct (words s)|]; discriminate. Qed.
Lemma words_blank b : forall a, words (a ++ " " ++ b) = List.app (words a) (words b).
Proof.
  induction a as [|c a IH]; [reflexivity|]. change (String c a ++ " " ++ b) with (String c (a ++ " " ++ b)). cbn [words]. rewrite IH. destruct (nonblank c); [|reflexivity].
  pose proof (words_some a). destruct (words a); [easy|reflexivity].
Qed.
Lemma words_one s : every nonblank s = true -> words s = [s].
Proof. induction s as [|c s IH]; [reflexivity|]. cbn [every words]. intros E. apply andb_prop in E as [E1 E2]. now rewrite E1, (IH E2). Qed.
Lemma words_inj s : joined " " (words s) = s.
Proof.
  induction s as [|c s IH]; [reflexivity|]. cbn [words]. pose proof (words_some s) as W. destruct (nonblank c) eqn:E.
  - destruct (words s) as [|w [|w' l]]; [easy| |]; cbn [joined append] in *; now rewrite IH.
  - unfold nonblank, is in E. apply negb_false_iff, Ascii.eqb_eq in E. subst c. destruct (words s) as [|w l]; [easy|]. cbn [joined append] in *. now rewrite IH.
Qed.
Definition blankless (tab : list (string * N)) : Prop := forall n b, In (n, b) tab -> every nonblank n = true.
Lemma num_blank n : every nonblank (num n) = true.
Proof. generalize (num_digits n). apply every_imp. intros a H. unfold nonblank, is. now rewrite (digit_not a) by (exact H || reflexivity). Qed.
Lemma flagmode_blank tab r : blankless tab -> every nonblank (show_flagmode tab r) = true.
Proof.
  intros H. assert (F : forall f, every nonblank (flags_to_string tab f) = true).
  { intros f. apply every_joined; [reflexivity|]. apply Forall_forall. intros n X. apply in_map_iff in X as ((n' & b) & <- & X). apply filter_In in X as (X & _). exact (H _ _ X). }
  rewrite flagmode_body. unfold fl_of, mo_of. destruct (match dget fd_flags (r_fd r) with Some f => N.eqb (r_flag r) f | None => false end), (N.eqb (r_mode r) default_mode);
    cbn [body]; rewrite ?every_app, ?F, ?num_blank; reflexivity.
Qed.
Lemma ordinary_blank s : ordinary s -> every nonblank s = true.
Proof. intros (H & _). revert H. apply every_imp. unfold nonblank. intros a. rewrite !negb_true_iff, !orb_false_iff. tauto. Qed.
Lemma item_words tmp tab r : blankless tab -> usual_redirect r -> r_pipe r = None ->
  exists ws w, ~ In "with" ws /\ forall suf, every nonblank suf = true -> words (show tmp tab r ++ suf) = List.app ws [w ++ suf].
Proof.
  intros HB U HP.
  pose (o := (if r_borrowed r then "(" else "") ++ num (N.of_nat (r_fd r))). pose (c := if r_borrowed r then ")" else "").
  pose (w := negb (N.eqb (N.land (r_flag r) O_WRONLY) 0)). pose (a := (if w then "-" else "<-") ++ show_flagmode tab r ++ "-" ++ (if w then ">" else "")).
  assert (Fm : forall suf, show tmp tab r ++ suf = o ++ " " ++ a ++ " " ++ show_source tmp (r_source r) ++ c ++ suf).
  { intros suf. rewrite show_form, HP. subst o c a. fold w. rewrite !app_assoc_s. reflexivity. }
  assert (Bo : every nonblank o = true) by (subst o; rewrite every_app, num_blank; destruct (r_borrowed r); reflexivity).
  assert (Bc : every nonblank c = true) by (subst c; destruct (r_borrowed r); reflexivity).
  assert (Ba : every nonblank a = true) by (subst a; rewrite !every_app, flagmode_blank by exact HB; destruct w; reflexivity).
  assert (No : o <> "with").
  { subst o. destruct (r_borrowed r); [discriminate|]. intros X. pose proof (num_digits (N.of_nat (r_fd r))) as D. cbn [append] in X. rewrite X in D. discriminate. }
  assert (Na : a <> "with") by (subst a; destruct w; discriminate).
  assert (W2 : forall t, words (o ++ " " ++ a ++ " " ++ t) = o :: a :: words t) by (intros t; rewrite words_blank, words_blank, (words_one o Bo), (words_one a Ba); reflexivity).
  assert (One : forall s, every nonblank s = true -> show_source tmp (r_source r) = s ->
    exists ws w, ~ In "with" ws /\ forall suf, every nonblank suf = true -> words (show tmp tab r ++ suf) = List.app ws [w ++ suf]).
  { intros s Hs Es. exists [o; a], (s ++ c). split; [cbn; tauto|]. intros suf Hf. rewrite Fm, W2, Es, words_one; [cbn; now rewrite app_assoc_s|]. now rewrite !every_app, Hs, Bc, Hf. }
  assert (Two : forall s, every nonblank s = true -> show_source tmp (r_source r) = "<class " ++ s ->
    exists ws w, ~ In "with" ws /\ forall suf, every nonblank suf = true -> words (show tmp tab r ++ suf) = List.app ws [w ++ suf]).
  { intros s Hs Es. exists [o; a; "<class"], (s ++ c). split; [cbn; intros [X|[X|[X|[]]]]; congruence|]. intros suf Hf. rewrite Fm, W2, Es.
    change (("<class " ++ s) ++ c ++ suf) with ("<class" ++ " " ++ (s ++ c ++ suf)). rewrite words_blank, (words_one (s ++ c ++ suf)); [cbn; now rewrite app_assoc_s|]. now rewrite !every_app, Hs, Bc, Hf. }
  unfold usual_redirect in U. destruct (r_source r) as [|n|[s|k]| | | |] eqn:Es; try contradiction U.
  - apply (One (num (N.of_nat n))); [apply num_blank|reflexivity].
  - apply (One s); [now apply ordinary_blank|reflexivity].
  - apply (Two "'pieshell.redir.PIPE'>"); reflexivity.
  - apply (Two "'pieshell.redir.TMP'>"); reflexivity.
  - apply (Two "'pieshell.redir.STRING'>"); reflexivity.
Qed.
Lemma all_words tmp tab : blankless tab -> forall l, Forall (fun r => usual_redirect r /\ r_pipe r = None) l ->
  exists ws w, ~ In "with" ws /\ words (joined ", " (map (show tmp tab) l)) = List.app ws [w].
Proof.
  intros HB. induction l as [|r l IH]; intros F; [exists [], ""; now split|]. inversion F as [|? ? [U P] F']; subst.
  destruct (item_words tmp tab r HB U P) as (ws & w & N1 & W). destruct l as [|r' l].
  - exists ws, (w ++ ""). split; [exact N1|]. rewrite <- W by reflexivity. cbn. now rewrite app_nil_s.
  - destruct (IH F') as (ws' & w' & N2 & W'). exists (List.app (List.app ws [w ++ ","]) ws'), w'. split.
    + rewrite !in_app_iff. cbn. intros [[X|[X|[]]]|X]; [tauto| |tauto]. apply (f_equal (every (fun a => negb (is "," a)))) in X. rewrite every_app in X. cbn in X. rewrite ?andb_false_r in X. discriminate.
    + change (joined ", " (map (show tmp tab) (r :: r' :: l))) with (show tmp tab r ++ "," ++ " " ++ joined ", " (map (show tmp tab) (r' :: l))).
      rewrite <- app_assoc_s, words_blank, W', W by reflexivity. now rewrite !List.app_assoc.
Qed.
Lemma last_with (f1 f2 : list string) : ~ In "with" f1 -> ~ In "with" f2 -> forall a b, List.app a ("with" :: f1) = List.app b ("with" :: f2) -> a = b /\ f1 = f2.
Proof.
  intros N1 N2. induction a as [|x a IH]; intros [|y b] E; cbn in E.
  - now injection E.
  - injection E as _ E. destruct N1. rewrite E. apply in_app_iff. right. now left.
  - injection E as _ E. destruct N2. rewrite <- E. apply in_app_iff. right. now left.
  - injection E as -> E. now destruct (IH b E) as [-> ->].
Qed.
(** The printed form of a command with redirects (redirect.py:34-35: "%s with %s") tells both
    the command and its redirects. *)
Theorem C118_command : forall tmp tab c d c' e, flag_names tab -> blankless tab -> (forall k, ordinary (tmp k)) -> (forall k j, tmp k = tmp j -> k = j) ->
  wf_redirects d -> wf_redirects e -> (forall n r, dget d n = Some r \/ dget e n = Some r -> usual_redirect r /\ r_pipe r = None) ->
  c ++ " with " ++ show_all tmp tab d = c' ++ " with " ++ show_all tmp tab e ->
  c = c' /\ forall n, match dget d n, dget e n with Some a, Some b => same_redirect tab a b | None, None => True | _, _ => False end.
Proof.
  intros tmp tab c d c' e HT HB Ho Hi Wd We U E.
  assert (G : forall x, wf_redirects x -> (forall n r, dget x n = Some r -> usual_redirect r /\ r_pipe r = None) ->
    exists ws w, ~ In "with" ws /\ words (show_all tmp tab x) = List.app ws [w]).
  { intros x W H. apply all_words; [exact HB|]. apply Forall_forall. intros r Hin. apply (Permutation_in _ (Permutation_sym (proj1 (wf_perm x W)))) in Hin. apply in_map_iff in Hin as ((k, v) & <- & Hin).
    apply (H k). apply dget_of_In; [apply W|exact Hin]. }
  destruct (G d Wd (fun n r H => U n r (or_introl H))) as (f1 & w1 & N1 & W1). destruct (G e We (fun n r H => U n r (or_intror H))) as (f2 & w2 & N2 & W2).
  assert (X : List.app (words c) ("with" :: List.app f1 [w1]) = List.app (words c') ("with" :: List.app f2 [w2])).
  { rewrite <- W1, <- W2. apply (f_equal words) in E. change (words (c ++ " " ++ ("with" ++ " " ++ show_all tmp tab d)) = words (c' ++ " " ++ ("with" ++ " " ++ show_all tmp tab e))) in E.
    rewrite !words_blank in E. exact E. }
  change (List.app (words c) (List.app ("with" :: f1) [w1]) = List.app (words c') (List.app ("with" :: f2) [w2])) in X. rewrite !List.app_assoc in X. apply app_inj_tail in X as [X Xw].
  apply (last_with f1 f2 N1 N2) in X as [Xc Xf]. split; [now rewrite <- (words_inj c), Xc, words_inj|].
  apply (C118_told tmp tab d e HT Ho Hi Wd We); [intros n r H; apply (U n r H)|].
  rewrite <- (words_inj (show_all tmp tab d)), <- (words_inj (show_all tmp tab e)), W1, W2, Xf, Xw. reflexivity.
Qed.
Print Assumptions C118_command.
Example C118_command_nonvacuous :
  blankless linux_flags /\
  (let d := [(1, mkRedirect 1 (SPath (PName "log")) 1089 default_mode None false); (0, mkRedirect 0 SPIPE 0 default_mode None false)] in
   wf_redirects d /\ (forall n r, dget d n = Some r -> usual_redirect r /\ r_pipe r = None) /\
   show_all temp_names linux_flags d = "0 <-- <class 'pieshell.redir.PIPE'>, 1 -[APPEND,CREAT,WRONLY]-> log").
Proof.
  split.
  - intros n b H. cbn in H. repeat (destruct H as [H|H]; [injection H as <- <-; reflexivity|]). destruct H.
  - split; [|split; [|reflexivity] ].
    + split; [cbn; repeat (constructor; [cbn; intuition discriminate|]); constructor|]. repeat (constructor; [split; [reflexivity|discriminate]|]). constructor.
    + intros n r H. apply dget_In in H. destruct H as [H|[H|[] ] ]; injection H as <- <-; (split; [|reflexivity]); [|exact I]. cbn. split; [reflexivity|]. split; [reflexivity|]. intros r X. discriminate.
Qed.
(** With the other end of a pipe shown it need not: a file may be named with. *)
Theorem C118_with_refuted :
  "a" ++ " with " ++ show_all temp_names linux_flags [(1, mkRedirect 1 (SPath (PName "with")) 65 default_mode (Some (PFd 3)) false)] =
  "a with 1 -->" ++ " with " ++ "pipe=3".
Proof. reflexivity. Qed.
