(** C97: each iteration over a running pipeline gets that pipeline's output. *)
From Verif Require Import Py RegModel RegSpec RegProofs.

(** If no running pipeline is iterated over twice, then in every history of runs,
    iterations, reads and numbers given out again no iteration raises, what each has got
    is the beginning of what its own pipeline has written, the rest is still in the pipe,
    and one that has ended has got all of it, its pipeline having closed its output. *)
Theorem C97_own_output : forall t l s, each_once l -> act_steps (fresh t) l = Some s ->
  g_raised s = [] /\
  forall h hd, nth_error (g_hs s) h = Some hd ->
    hd_got hd ++ g_pipe s (hd_run hd) = written (hd_run hd) l /\
    (hd_eof hd = true -> hd_got hd = written (hd_run hd) l /\ existsb (closes (hd_run hd)) l = true).
Proof.
  intros t l s Nd E. pose proof (once_steps l _ _ (once_fresh t _) Nd (apart_fresh t) E) as O. split; [apply (o_raised _ _ O)|]. intros h hd Eh.
  destruct (o_hd _ _ O _ _ Eh) as (A1 & A2 & A3 & _). destruct (sent_steps l _ _ (hd_run hd) E) as [B1 B2]. cbn in B1, B2. rewrite <- B1. split; [exact A2|].
  intros F. destruct (A3 F) as [C1 C2]. rewrite C2, app_nil_r in A2. split; [exact A2|]. rewrite C1 in B2. now destruct (existsb _ l).
Qed.
Print Assumptions C97_own_output.
(** ... and each iteration can be brought to its end by the event loop alone, once the
    pipeline's processes have closed their output. *)
Theorem C97_all_of_it : forall t l s h hd, each_once l -> act_steps (fresh t) l = Some s ->
  nth_error (g_hs s) h = Some hd -> existsb (closes (hd_run hd)) l = true ->
  exists l' s', forallb is_event l' = true /\ act_steps s l' = Some s' /\
    exists hd', nth_error (g_hs s') h = Some hd' /\ hd_run hd' = hd_run hd /\ hd_eof hd' = true /\ hd_got hd' = written (hd_run hd) l.
Proof.
  intros t l s h hd Nd E Eh Ec. destruct (once_apart_steps l _ _ (once_fresh t _) Nd (apart_fresh t) E) as [O Ap].
  assert (Fin : forall l' s', forallb is_event l' = true -> act_steps s l' = Some s' -> each_once (l ++ l') /\ written (hd_run hd) (l ++ l') = written (hd_run hd) l).
  { intros l' s' Ev _. assert (X : flat_map iterates l' = [] /\ written (hd_run hd) l' = []).
    { unfold written. clear -Ev. induction l' as [|a l' IH]; [auto|]. cbn in Ev. apply andb_prop in Ev as [E1 E2]. destruct (IH E2) as [A B]. destruct a; try discriminate. cbn. auto. }
    destruct X as [X1 X2]. unfold each_once, written in *. rewrite !flat_map_app, X1, X2, !app_nil_r. auto. }
  destruct (hd_eof hd) eqn:Ee.
  - exists [], s. split; [reflexivity|]. split; [reflexivity|]. exists hd. repeat split; auto. destruct (C97_own_output t l s Nd E) as [_ A]. now apply (A h hd Eh).
  - destruct (sent_steps l _ _ (hd_run hd) E) as [_ B2]. cbn in B2. rewrite Ec in B2.
    destruct (drain _ s h hd O Ap Eh Ee B2 (le_n _)) as (l' & s' & C1 & C2 & hd' & C3 & C4 & C5). exists l', s'. split; [exact C1|]. split; [exact C2|]. exists hd'. repeat split; auto.
    destruct (Fin l' s' C1 C2) as [F1 F2]. assert (E' : act_steps (fresh t) (l ++ l') = Some s') by (rewrite act_steps_app, E; exact C2).
    destruct (C97_own_output t (l ++ l') s' F1 E') as [_ A]. destruct (A h hd' C3) as [_ D]. rewrite <- F2, <- C4. now apply D.
Qed.
Print Assumptions C97_all_of_it.
(** C97 is false in general: in every history, when a running pipeline is iterated over
    whose number refers to something (again), then an iteration [h] that is waiting at
    that number - an earlier one over the same pipeline, or one over a later pipeline
    that was given the same number - never gets anything again and never ends. *)
Theorem C97_deaf_refuted : forall t l s r fd h hd, act_steps (fresh t) l = Some s ->
  nth_error (g_fds s) r = Some fd -> g_tab s fd <> None ->
  nth_error (g_hs s) h = Some hd -> hd_fd hd = fd -> hd_eof hd = false ->
  forall l' s', act_steps s (AIterate r :: l') = Some s' ->
  exists hd', nth_error (g_hs s') h = Some hd' /\ hd_got hd' = hd_got hd /\ hd_eof hd' = false.
Proof.
  intros t l s r fd h hd E Ef Et Eh Efd Ee l' s' E2.
  assert (P : placed s) by (eapply placed_steps; [|exact E]; intros ? ?; discriminate).
  cbn [act_steps act_step] in E2. rewrite Ef in E2. destruct (g_tab s fd) as [f|] eqn:E3; [|congruence].
  assert (L : lost h (mkShell (g_tab s) (put (g_sel s) fd (Some (List.length (g_hs s)))) (g_hs s ++ [mkHandler r fd [] false]) (g_fds s) (g_pipe s) (g_sent s) (g_wopen s) (g_raised s)) (hd_got hd)).
  { assert (Lh : h < List.length (g_hs s)) by (apply nth_error_Some; congruence). split; cbn [g_hs g_sel].
    - exists hd. rewrite nth_error_app1 by exact Lh. auto.
    - intros fd'. unfold put. destruct (Nat.eqb_spec fd' fd) as [->|Ne]; [intros X; injection X as X; lia|]. intros X. destruct (P _ _ X) as (hd2 & A & B). congruence. }
  destruct (lost_steps l' _ _ _ _ L E2) as [X _]. exact X.
Qed.
Print Assumptions C97_deaf_refuted.
(** And if by then the number belongs to another pipeline [r2], what that one writes is
    given to the iteration over [r]. *)
Theorem C97_stolen_refuted : forall t l s r r2 fd d, act_steps (fresh t) l = Some s ->
  nth_error (g_fds s) r = Some fd -> g_tab s fd = Some (OutputOf r2) -> r2 <> r ->
  d <> [] -> List.length d <= 1024 -> g_pipe s r2 = d ->
  exists s', act_steps s [AIterate r; AEvent fd d] = Some s' /\
    exists hd', nth_error (g_hs s') (List.length (g_hs s)) = Some hd' /\ hd_run hd' = r /\ hd_got hd' = d.
Proof.
  intros t l s r r2 fd d E Ef Et Ne Nd Ld Ep. cbn [act_steps act_step]. rewrite Ef, Et. cbn [g_sel g_tab g_hs]. rewrite put_eq, Et, nth_snoc, Nat.eqb_refl.
  assert (Em : may_read (mkShell (g_tab s) (put (g_sel s) fd (Some (List.length (g_hs s)))) (g_hs s ++ [mkHandler r fd [] false]) (g_fds s) (g_pipe s) (g_sent s) (g_wopen s) (g_raised s)) (OutputOf r2) d = true).
  { unfold may_read. cbn [g_pipe]. rewrite Ep. destruct d as [|b d]; [congruence|]. rewrite (proj2 (Nat.leb_le _ _) Ld), Nat.leb_refl. clear. induction (b :: d) as [|x y IH]; [reflexivity|]. cbn. rewrite N.eqb_refl. exact IH. }
  rewrite Em. destruct d as [|b d]; [congruence|]. eexists. split; [reflexivity|]. cbn [g_hs]. rewrite nth_replace, Nat.eqb_refl, nth_snoc, Nat.eqb_refl. eexists. repeat split; reflexivity.
Qed.
Print Assumptions C97_stolen_refuted.

(** Two pipelines at once, their numbers 3 and 4, the first number given out again to a
    third pipeline. *)
Definition two : list act :=
  [ARun 3; ARun 4; AIterate 0; AIterate 1; AWrite 0 [97; 98]%N; AWrite 1 [99]%N; AEvent 3 [97]%N; AEvent 4 [99]%N; AClose 0; AEvent 3 [98]%N; AEvent 3 []; ARun 3; AIterate 2; AWrite 2 [100]%N; AClose 1].
Example C97_nonvacuous : each_once two /\
  exists s, act_steps (fresh (fun fd => fd <? 3)) two = Some s /\
  g_hs s = [mkHandler 0 3 [97; 98]%N true; mkHandler 1 4 [99]%N false; mkHandler 2 3 [] false] /\
  nth_error (g_fds s) 0 = Some 3 /\ g_tab s 3 = Some (OutputOf 2) /\ g_pipe s 2 = [100]%N /\
  (** iterating over the first again *)
  option_map g_hs (act_steps s [AIterate 0; AEvent 3 [100]%N]) =
    Some [mkHandler 0 3 [97; 98]%N true; mkHandler 1 4 [99]%N false; mkHandler 2 3 [] false; mkHandler 0 3 [100]%N false].
Proof.
  split; [repeat constructor; cbn; intuition congruence|]. eexists. split; [vm_compute; reflexivity|]. vm_compute. repeat split.
Qed.
(** Iterating over a pipeline whose number is free raises. *)
Example C97_raises :
  option_map g_raised (act_steps (fresh (fun fd => fd <? 3)) [ARun 3; AIterate 0; AClose 0; AEvent 3 []; AIterate 0]) = Some [0].
Proof. reflexivity. Qed.
