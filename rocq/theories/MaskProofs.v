From Verif Require Import Py WorldModel MaskModel MaskSpec.

Definition norm (d : disposition) : disposition := match d with Handled => Default | d => d end.
Lemma taken_iff n : taken n = true <-> manager_takes n.
Proof. unfold taken, manager_takes. rewrite orb_true_iff, !N.eqb_eq. tauto. Qed.
Lemma taken_not n : ~ manager_takes n -> taken n = false.
Proof. intros H. destruct (taken n) eqn:E; [|reflexivity]. now apply taken_iff in E. Qed.
Lemma start_blocked m s n : sg_blocked (pieshell_start m s) n = (match m with Signalfd => taken n | Asyncio => false end || sg_blocked s n).
Proof. unfold pieshell_start, manager_start, python_start, sig_fork. destruct m; cbn; destruct (sg_disp s SIGINT); reflexivity. Qed.
Lemma start_disp m s n : norm (sg_disp (pieshell_start m s) n) =
  if N.eqb n SIGXFSZ || N.eqb n SIGPIPE then Ignored else match m with Asyncio => if taken n then Default else norm (sg_disp s n) | Signalfd => norm (sg_disp s n) end.
Proof.
  unfold pieshell_start, manager_start, python_start, sig_exec, sig_fork, set_disp. cbn [sg_disp sg_blocked].
  destruct (N.eqb_spec n SIGXFSZ) as [->|N1]; [destruct m; cbn; destruct (sg_disp s SIGINT); reflexivity|].
  destruct (N.eqb_spec n SIGPIPE) as [->|N2]; [destruct m; cbn; destruct (sg_disp s SIGINT); reflexivity|]. cbn [orb].
  destruct (N.eqb_spec n SIGINT) as [->|N3]; [destruct m; cbn; destruct (sg_disp s SIGINT) eqn:E; cbn; rewrite ?E; reflexivity|].
  apply N.eqb_neq in N1, N2, N3. destruct m; cbn [sg_disp sg_blocked]; [|destruct (taken n); [reflexivity|] ].
  all: change (N.eqb SIGINT SIGXFSZ) with false; change (N.eqb SIGINT SIGPIPE) with false; cbv iota; destruct (sg_disp s SIGINT); cbn [sg_disp]; rewrite ?N1, ?N2, ?N3; destruct (sg_disp s n); reflexivity.
Qed.
Lemma fold_blocked ms n : forall s, sg_blocked (fold_left (fun s m => pieshell_start m s) ms s) n =
  ((existsb (fun m => match m with Signalfd => true | _ => false end) ms && taken n) || sg_blocked s n).
Proof.
  induction ms as [|m ms IH]; intros s; [reflexivity|]. cbn [fold_left existsb]. rewrite IH, start_blocked. destruct m; cbn; destruct (existsb _ ms), (taken n), (sg_blocked s n); reflexivity.
Qed.
Lemma fold_disp ms n : forall s, norm (sg_disp (fold_left (fun s m => pieshell_start m s) ms s) n) =
  match ms with
  | [] => norm (sg_disp s n)
  | _ => if N.eqb n SIGXFSZ || N.eqb n SIGPIPE then Ignored
         else if existsb (fun m => match m with Asyncio => true | _ => false end) ms && taken n then Default else norm (sg_disp s n)
  end.
Proof.
  induction ms as [|m ms IH]; intros s; [reflexivity|]. cbn [fold_left]. rewrite IH. destruct ms as [|m2 ms].
  - rewrite start_disp. destruct (_ || _); [reflexivity|]. destruct m; cbn; destruct (taken n); reflexivity.
  - set (r := m2 :: ms). cbn [existsb]. rewrite start_disp. destruct (_ || _); [reflexivity|]. destruct (existsb _ r), m, (taken n); cbn; reflexivity.
Qed.
Lemma program_blocked ms s n : sg_blocked (program_sigs ms s) n = ((existsb (fun m => match m with Signalfd => true | _ => false end) ms && taken n) || sg_blocked s n).
Proof. unfold program_sigs, command_start, sig_exec, sig_fork. cbn. apply fold_blocked. Qed.
Lemma program_disp ms s n : sg_disp (program_sigs ms s) n = norm (sg_disp (fold_left (fun s m => pieshell_start m s) ms s) n).
Proof. unfold program_sigs, command_start, sig_exec, sig_fork, norm. cbn [sg_disp]. now destruct (sg_disp _ n). Qed.
Lemma plain_disp s s' n : plain_start s s' -> sg_disp s' n = norm (sg_disp s n).
Proof. intros [A B C]. destruct (sg_disp s n) eqn:E; cbn; [apply B; congruence|now apply C|apply B; congruence]. Qed.
Lemma others_agree ms s s' n : plain_start s s' -> ~ python_changes n -> ~ manager_takes n -> agree (program_sigs ms s) s' n.
Proof.
  intros P Np Nm. apply taken_not in Nm. split.
  - rewrite program_blocked, Nm, (ps_mask _ _ P), andb_false_r. reflexivity.
  - rewrite program_disp, fold_disp, (plain_disp s s' n P), Nm, andb_false_r. destruct ms; [reflexivity|].
    destruct (N.eqb_spec n SIGXFSZ); [now destruct Np; right|]. destruct (N.eqb_spec n SIGPIPE); [now destruct Np; left|]. reflexivity.
Qed.
Lemma taken_agree ms s s' n : plain_start s s' -> manager_takes n -> (forall m, In m ms -> m = Asyncio) -> sg_disp s n <> Ignored -> agree (program_sigs ms s) s' n.
Proof.
  intros P Nm Al Ni. split.
  - rewrite program_blocked, (ps_mask _ _ P). replace (existsb _ ms) with false; [reflexivity|]. symmetry. apply not_true_iff_false. intros E. apply existsb_exists in E. destruct E as (m & I & E). rewrite (Al m I) in E. discriminate.
  - rewrite program_disp, fold_disp, (plain_disp s s' n P). destruct ms; [reflexivity|]. destruct Nm as [-> | ->]; cbn; destruct (sg_disp s _) eqn:E; cbn; try congruence; destruct (existsb _ _), m; reflexivity.
Qed.
Lemma pipe_ignored ms s n : ms <> [] -> python_changes n -> sg_disp (program_sigs ms s) n = Ignored /\ receives (program_sigs ms s) n <> Acts.
Proof.
  intros Ne P. assert (E : sg_disp (program_sigs ms s) n = Ignored).
  { rewrite program_disp, fold_disp. destruct ms; [easy|]. destruct P as [-> | ->]; reflexivity. }
  split; [exact E|]. unfold receives. rewrite E. destruct (sg_blocked _ _); discriminate.
Qed.
Lemma taken_blocked ms s n : In Signalfd ms -> manager_takes n -> sg_blocked (program_sigs ms s) n = true /\ receives (program_sigs ms s) n = Waits.
Proof.
  intros I T. assert (E : sg_blocked (program_sigs ms s) n = true).
  { rewrite program_blocked. apply taken_iff in T. rewrite T, andb_true_r. apply orb_true_iff. left. apply existsb_exists. now exists Signalfd. }
  split; [exact E|]. unfold receives. now rewrite E.
Qed.
Lemma unignored ms s n : In Asyncio ms -> manager_takes n -> sg_disp (program_sigs ms s) n = Default.
Proof.
  intros I T. rewrite program_disp, fold_disp. destruct ms as [|m ms]; [easy|]. apply taken_iff in T as T'. rewrite T', andb_true_r.
  replace (existsb _ (m :: ms)) with true by (symmetry; apply existsb_exists; now exists Asyncio). destruct T as [-> | ->]; reflexivity.
Qed.
