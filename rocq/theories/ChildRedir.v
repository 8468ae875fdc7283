(** A command whose input file cannot be opened is run all the same. *)
From Verif Require Import Py RedirModel RedirSpec Os PerformModel PerformSpec PerformSound RunModel RunSpec RunTopSpec RunMain RunArgs RunTop RunFinal RunMore RunFail.

Definition in_redirect (p : path) (fl : N) : redirects := [(0, mkRedirect 0 (SPath p) fl default_mode None false)].
Lemma lowest3 t : tget t 0 <> None -> tget t 1 <> None -> tget t 2 <> None -> 2 < lowest t.
Proof.
  intros A B C. destruct (Nat.lt_ge_cases 2 (lowest t)) as [H|H]; auto. exfalso.
  pose proof (tget_lowest t) as E. destruct (lowest t) as [|[|[|k] ] ]; try lia; congruence.
Qed.
Lemma missing_input L pf ws p fl s e0 e1 e2 logfd maxfd :
  tget (s_tab s) 0 = Some e0 -> tget (s_tab s) 1 = Some e1 -> tget (s_tab s) 2 = Some e2 ->
  can_open L p fl = false -> lowest (s_tab s) + 4 <= lim L ->
  exists s' ret rs t, start L pf false (PRedir (PCmd (map AWord ws)) (in_redirect p fl)) s = (s', Ok (ret, [IProc rs t (map Word ws)])) /\
    snd (perform L logfd maxfd rs t) = Some (OSError ENOENT) /\
    program_fd L logfd maxfd rs t 0 = (if e_cloexec e0 then None else Some (e_ofd e0)) /\
    program_fd L logfd maxfd rs t 1 = None.
Proof.
  intros H0 H1 H2 C R. set (k := lowest (s_tab s)) in *.
  assert (K : 2 < k) by (apply lowest3; congruence).
  rewrite start_is. change (run L pf (PRedir (PCmd (map AWord ws)) (in_redirect p fl)) (top_rs false))
      with (rdo m <- rlift (merge def_rs (in_redirect p fl)); run L pf (PCmd (map AWord ws)) m).
  unfold rbind at 1.
  set (r0 := mkRedirect 0 (SPath p) fl default_mode None false).
  set (r1 := mkRedirect 1 (SInt 1) out_flags default_mode None true).
  change (rlift (merge def_rs (in_redirect p fl)) s) with
      (s, Ok [(0, r0); (1, r1); (2, mkRedirect 2 SSTRING out_flags default_mode None false)]).
  cbv beta iota.
  set (r2 := mkRedirect 2 (SInt k) out_flags default_mode (Some (PString (s_nt s))) false).
  set (rs := [(0, r0); (1, r1); (2, r2)]).
  set (t := tset (s_tab s) k (Some (mkEnt (OTmp (s_nt s)) true))).
  set (s1 := mkSt t (s_np s) (S (s_nt s))).
  rewrite run_PCmd. unfold rbind.
  assert (Em : make_pipes L [(0, r0); (1, r1); (2, mkRedirect 2 SSTRING out_flags default_mode None false)] s = (s1, Ok rs)).
  { unfold make_pipes, rbind. cbn [dvals map snd make_pipe_list]. unfold rbind, make_pipe. cbn [r_source r0 r1 r2 rret].
    change (writes _) with true. unfold rbind, mkstemp. fold k. replace (k <? lim L) with true by (symmetry; apply Nat.ltb_lt; lia). reflexivity. }
  rewrite Em.
  assert (Ec : rlift (new_redirects [IRedirects rs]) s1 = (s1, Ok rs)) by reflexivity. rewrite Ec.
  assert (Ea : run_args L pf (borrow rs) (map AWord ws) rs s1 = (s1, Ok (rs, [], map Word ws))).
  { clear. induction ws as [|w ws IH]; [reflexivity|]. cbn [map]. change (run_args L pf (borrow rs) (AWord w :: map AWord ws) rs) with
        (rdo (m, its, argv) <- run_args L pf (borrow rs) (map AWord ws) rs; rret (m, its, Word w :: argv)).
    unfold rbind. now rewrite IH. }
  rewrite Ea. cbv beta iota. unfold get_tab, lift. cbv beta iota.
  assert (Tk : tget t k = Some (mkEnt (OTmp (s_nt s)) true)) by (unfold t; now rewrite tget_tset, Nat.eqb_refl).
  assert (To : forall n, n <> k -> tget t n = tget (s_tab s) n).
  { intros n Hn. unfold t. rewrite tget_tset. destruct (Nat.eqb_spec n k); congruence. }
  assert (Ek : close_source_fds rs t = (tset t k None, Ok tt)).
  { unfold close_source_fds, rs. cbn. unfold tbind, tret, close_source_fd. cbn. unfold os_close. now rewrite Tk. }
  change (s_tab s1) with t. rewrite Ek. unfold rret. cbn [app].
  exists (mkSt (tset t k None) (s_np s1) (s_nt s1)), (Some rs), rs, t. split; [reflexivity|].
  assert (FF : find_free_fd rs = S k).
  { unfold find_free_fd. change (map r_fd (dvals rs) ++ source_ints rs ++ [2]) with [0; 1; 2; 1; k; 2]. cbn [list_max fold_right]. lia. }
  set (t2 := tset (tset (tset (tset t (k + 2) (Some (mkEnt (e_ofd e1) false))) 1 None) (k + 3) (Some (mkEnt (OTmp (s_nt s)) false))) k None).
  assert (P : perform L logfd maxfd rs t = (t2, Some (OSError ENOENT))).
  { unfold perform, move_existing_fds. rewrite FF. unfold rs. cbn [dvals map snd move_loop].
    unfold tbind at 1 2 3, redirect_move at 1. cbn [r_source r0 tret].
    replace (S k + 1) with (k + 2) by lia. replace (k + 2 + 1) with (k + 3) by lia.
    assert (M1 : redirect_move L r1 (k + 2) t = (tset (tset t (k + 2) (Some (mkEnt (e_ofd e1) false))) 1 None, Ok (set_source r1 (SInt (k + 2))))).
    { unfold redirect_move, tbind. cbn [r_source r1]. unfold os_dup2. rewrite To, H1 by lia.
      replace (k + 2 <? lim L) with true by (symmetry; apply Nat.ltb_lt; lia).
      unfold os_close. rewrite tget_tset. replace (1 =? k + 2) with false by (symmetry; apply Nat.eqb_neq; lia). rewrite To, H1 by lia. reflexivity. }
    assert (M2 : redirect_move L r2 (k + 3) (tset (tset t (k + 2) (Some (mkEnt (e_ofd e1) false))) 1 None) = (t2, Ok (set_source r2 (SInt (k + 3))))).
    { unfold redirect_move, tbind. cbn [r_source r2]. unfold os_dup2. rewrite !tget_tset. replace (k =? 1) with false by (symmetry; apply Nat.eqb_neq; lia).
      replace (k =? k + 2) with false by (symmetry; apply Nat.eqb_neq; lia). rewrite Tk.
      replace (k + 3 <? lim L) with true by (symmetry; apply Nat.ltb_lt; lia).
      unfold os_close. rewrite !tget_tset. replace (k =? k + 3) with false by (symmetry; apply Nat.eqb_neq; lia).
      replace (k =? 1) with false by (symmetry; apply Nat.eqb_neq; lia).
      replace (k =? k + 2) with false by (symmetry; apply Nat.eqb_neq; lia). rewrite Tk. reflexivity. }
    unfold tbind. cbv beta iota. rewrite M1. cbv beta iota. rewrite M2. cbv beta iota.
    cbn [tret perform_loop]. unfold tbind, redirect_perform, redirect_open. cbn [r_source r0 r_flag]. unfold tbind, os_open. rewrite C. reflexivity. }
  unfold program_fd, refers. rewrite P. cbn [fst snd]. split; [reflexivity|]. rewrite !tget_exec. unfold t2. rewrite !tget_tset.
  replace (0 =? k) with false by (symmetry; apply Nat.eqb_neq; lia). replace (1 =? k) with false by (symmetry; apply Nat.eqb_neq; lia).
  replace (0 =? k + 3) with false by (symmetry; apply Nat.eqb_neq; lia). replace (1 =? k + 3) with false by (symmetry; apply Nat.eqb_neq; lia).
  replace (0 =? k + 2) with false by (symmetry; apply Nat.eqb_neq; lia). cbn [Nat.eqb option_map].
  rewrite To, H0 by lia. split; [|reflexivity]. now destruct (e_cloexec e0).
Qed.
