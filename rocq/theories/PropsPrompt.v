(** C84: the directory shown in the prompt is the current directory.
    C85: showing the prompt does not change what fg and bg act on. *)
From Verif Require Import Py PathModel PathSpec PathProofs EnvModel EnvSpec EnvProofs PromptModel PromptProofs.

(** [cd] to what the prompt shows leads back to the current directory, if that is
    the home directory or below it ... *)
Theorem C84_below_home : forall w cwd h dh d dp ms, m_home (w_m w) [] = Some h -> is_dir h dh -> d_names dh <> [] -> is_dir (w_pcwd w) dp ->
  is_dir cwd d -> d = mkDir (d_two dh) (d_names dh ++ ms) ->
  expand_path w cwd (compress_user w cwd) = cwd /\
  compress_user w cwd = c_tilde :: List.concat (map (fun n => c_slash :: n) ms).
Proof.
  intros w cwd h dh d dp ms H I N P [O ->] ->. unfold compress_user. rewrite (home_text w h dh H I N). pose proof (proj1 I) as OH.
  destruct ms as [|m ms].
  - rewrite app_nil_r. replace (mkDir (d_two dh) (d_names dh)) with dh by now destruct dh. replace (startswith (render dh) (render dh)) with true by (symmetry; rewrite <- (app_nil_r (render dh)) at 1; apply starts_app).
    replace (skipn (List.length (render dh)) (render dh)) with (@nil BinNums.N) by (symmetry; apply skipn_all). split; [|reflexivity].
    pose proof (expand_home w (render dh) [] [] h dh dp P) as X. cbn [List.app] in X. rewrite X by (assumption || auto). now rewrite walk_empty.
  - rewrite render_below by (assumption || discriminate). rewrite starts_app, skip_app. split.
    + pose proof (expand_home w (render dh ++ c_slash :: join_with [c_slash] (m :: ms)) [] (c_slash :: join_with [c_slash] (m :: ms)) h dh dp P) as X. cbn [List.app] in X.
      rewrite X by (assumption || auto || (right; eexists; reflexivity)). rewrite walk_down; [now apply render_below|unfold dir_ok in O; cbn [d_names] in O; now apply Forall_app in O|discriminate].
    + f_equal. clear. revert m. induction ms as [|x ms IH]; intros m; [cbn; now rewrite app_nil_r|].
      change (List.concat (map (fun n => c_slash :: n) (m :: x :: ms))) with (c_slash :: m ++ List.concat (map (fun n => c_slash :: n) (x :: ms))). rewrite <- IH. reflexivity.
Qed.
Print Assumptions C84_below_home.
(** ... or if its name does not begin with the characters of the home directory's:
    then it is shown in full. *)
Theorem C84_elsewhere_partial : forall w cwd h dh d, m_home (w_m w) [] = Some h -> is_dir h dh -> d_names dh <> [] ->
  is_dir cwd d -> (forall r, cwd <> h ++ r) ->
  expand_path w cwd (compress_user w cwd) = cwd /\ compress_user w cwd = cwd.
Proof.
  intros w cwd h dh d H I N [O ->] E. unfold compress_user. rewrite (home_text w h dh H I N).
  assert (S : startswith (render d) (render dh) = false).
  { destruct I as [_ ->]. clear - E. destruct (startswith (render d) (render dh)) eqn:S; [|reflexivity]. exfalso. revert S E. generalize (render d) (render dh). intros a b. revert a. induction b as [|c b IH]; intros a S E; [now apply (E a)|].
    destruct a as [|x a]; [discriminate|]. rewrite startswith_cons in S. apply andb_true_iff in S. destruct S as [X S]. apply N.eqb_eq in X. subst. apply (IH a S). intros r ->. now apply (E r). }
  rewrite S. split; [|reflexivity]. rewrite expand_plain by (assumption || apply not_tilde_render). now rewrite resolve_render.
Qed.
Print Assumptions C84_elsewhere_partial.
(** But a directory beside the home directory whose name begins with the name of
    the home directory is shown as the home directory of another user, and cd to
    that leads elsewhere. *)
Theorem C84_refuted : forall w h dh ns n x dp, m_home (w_m w) [] = Some h -> is_dir h dh -> d_names dh = ns ++ [n] ->
  x <> [] -> name_ok x -> n <> [c_tilde] -> m_home (w_m w) x = None -> is_dir (w_pcwd w) dp ->
  let cwd := render (mkDir (d_two dh) (ns ++ [n ++ x])) in
  compress_user w cwd = c_tilde :: x /\ expand_path w cwd (compress_user w cwd) <> cwd.
Proof.
  intros w h dh ns n x dp H I E X OX NT U P cwd. assert (N : d_names dh <> []) by (rewrite E; destruct ns; discriminate).
  assert (R : cwd = render dh ++ x).
  { unfold cwd, render. cbn [d_two d_names]. rewrite E. destruct ns as [|m ns]; [cbn; now rewrite app_assoc|]. rewrite !join_app by discriminate. cbn [join_with]. now rewrite <- !app_assoc. }
  assert (C : compress_user w cwd = c_tilde :: x). { unfold compress_user. rewrite (home_text w h dh H I N), R, starts_app, skip_app. reflexivity. }
  split; [exact C|]. rewrite C. pose proof (expand_unknown w cwd x [] dp P) as K. rewrite app_nil_r in K. rewrite K by (auto; apply OX).
  assert (OT : name_ok (c_tilde :: x)). { repeat split; try discriminate. intros [Y|Y]; [discriminate|]. now apply OX in Y. }
  assert (W : resolve dp (c_tilde :: x) = mkDir (d_two dp) (d_names dp ++ [c_tilde :: x])).
  { unfold resolve. cbn [startswith]. change (N.eqb c_slash c_tilde) with false. cbn [andb]. unfold walk. rewrite split_none by apply OT. cbn [fold_left]. now rewrite enter_name. }
  rewrite W. unfold cwd. intros Y. apply render_inj in Y.
  - injection Y as _ Y. apply app_inj_tail in Y. destruct Y as [_ Y]. destruct n as [|c n]; [destruct I as [I _]; unfold dir_ok in I; rewrite E in I; apply Forall_app in I; destruct I as [_ I]; inversion I as [|? ? (Z & _) _]; now apply Z|].
    cbn [List.app] in Y. injection Y as Yc Y. assert (L : List.length x = List.length (n ++ x)) by now rewrite <- Y. rewrite app_length in L. destruct n as [|c0 n]; [apply NT; congruence|cbn in L; lia].
  - destruct P as [P _]. unfold dir_ok in *. cbn [d_names]. apply Forall_app. split; [exact P|]. now constructor.
  - destruct I as [I _]. unfold dir_ok in *. cbn [d_names]. rewrite E in I. apply Forall_app in I. destruct I as [I1 I2]. apply Forall_app. split; [exact I1|]. constructor; [|constructor].
    inversion I2 as [|? ? (Z1 & Z2 & Z3 & Z4) _]; subst. destruct OX as (X1 & X2 & X3 & X4). repeat split.
    + destruct n; [congruence|discriminate].
    + intros Y2. destruct n as [|a [|b n]]; [congruence| |]; unfold t_dot in Y2; cbn in Y2; injection Y2; intros; subst; congruence || discriminate.
    + intros Y2. destruct n as [|a [|b [|c n]]]; [congruence| | |]; unfold t_dotdot in Y2; cbn in Y2; injection Y2; intros; subst; try congruence; try discriminate; now apply Z2.
    + rewrite in_app_iff. tauto.
Qed.
Print Assumptions C84_refuted.
(** If the home directory is the root, every other directory is shown wrongly. *)
Theorem C84_root_refuted : forall w n ns, m_home (w_m w) [] = Some [c_slash] ->
  compress_user w (render (mkDir false (n :: ns))) = c_tilde :: join_with [c_slash] (n :: ns).
Proof. intros w n ns H. unfold compress_user, expanduser. rewrite N.eqb_refl. cbn [before_slash]. rewrite H. change (rstrip_slash [c_slash] ++ []) with (@nil BinNums.N). cbn iota.
  unfold render. cbn [d_two d_names List.app startswith]. rewrite N.eqb_refl, startswith_nil. reflexivity. Qed.
Print Assumptions C84_root_refuted.

(** C85.  Whatever the prompt runs, and even if it raises, last_pipeline is
    afterwards what it was, if anything was run before ... *)
Theorem C85_last_pipeline_partial : forall A (old : A) body s l, last_pipeline s = Some l -> in_prompt s = false ->
  last_pipeline (fst (prompt old body s)) = Some l /\ in_prompt (fst (prompt old body s)) = false.
Proof. intros A old body s l H I. unfold prompt. rewrite I, H. destruct (body (mkPr true (Some l))) as [s' r]. split; reflexivity. Qed.
Print Assumptions C85_last_pipeline_partial.
(** ... and a prompt that is asked for while the prompt is computed is the plain
    one and changes nothing. *)
Theorem C85_nested : forall A (old : A) body s, in_prompt s = true -> prompt old body s = (s, Ok old).
Proof. intros A old body s H. unfold prompt. now rewrite H. Qed.
Print Assumptions C85_nested.
(** The text is the computed one, or the exception. *)
Theorem C85_text : forall A (old : A) body s, in_prompt s = false -> snd (prompt old body s) = snd (body (mkPr true (last_pipeline s))).
Proof. intros A old body s H. unfold prompt. rewrite H. destruct (body _). reflexivity. Qed.
Print Assumptions C85_text.
(** If nothing was run before, fg and bg get a command instead of an error. *)
Theorem C85_refuted : forall A (old : A) body s, last_pipeline s = None -> in_prompt s = false -> last_pipeline (fst (prompt old body s)) = Some NoPipeline.
Proof. intros A old body s H I. unfold prompt. rewrite I, H. destruct (body (mkPr true None)) as [s' r]. reflexivity. Qed.
Print Assumptions C85_refuted.
Definition mach (h : string) : machine := mkMachine (fun n => match n with [] => Some (txt h) | _ => None end) (fun _ => Some KDir) (fun p => p) (fun _ => []).
Definition proc (h : string) : world := mkW (mach h) (txt "/") [] [].
Example C84_nonvacuous :
  compress_user (proc "/home/u") (txt "/home/u/src/x") = txt "~/src/x" /\ compress_user (proc "/home/u") (txt "/home/u") = txt "~" /\
  compress_user (proc "/home/u") (txt "/etc") = txt "/etc" /\
  compress_user (proc "/home/u") (txt "/home/u2") = txt "~2" /\ expand_path (proc "/home/u") (txt "/home/u2") (txt "~2") = txt "/~2" /\
  compress_user (proc "/") (txt "/etc") = txt "~etc".
Proof. repeat split. Qed.
Example C85_nonvacuous :
  let git := fun s => (mkPr (in_prompt s) (Some (Ran 7)), @Err nat (OSError EPERM)) in
  prompt 0 git (mkPr false (Some (Ran 3))) = (mkPr false (Some (Ran 3)), Err (OSError EPERM)) /\
  prompt 0 git (mkPr false None) = (mkPr false (Some NoPipeline), Err (OSError EPERM)).
Proof. split; reflexivity. Qed.
