(** C80: importing a .pysh module executes the file or raises.
    C81: pieshell's exit status tells whether its script succeeded. *)
From Verif Require Import Py PathModel EnvModel ScriptModel ScriptSpec ScriptProofs.

Section Modules.
  Context {S : Type} (fresh : S) (exists_ : text -> bool) (files : text -> option (program S)) (paths : list text).
  (** The name of the file in a directory of the path; "" stands for ".". *)
  Definition candidate (d file : text) : text := path_join (match d with [] => t_dot | _ => d end) file.
  (** The file executed is NAME.pysh in the first directory that has one; for
      import a.b.NAME, in the same directories. *)
  Theorem C80_which_file : forall pre name p, ~ In c_dot name -> pre = [] \/ (exists q, pre = q ++ [c_dot]) ->
    (find_module exists_ paths (pre ++ name) = Some p <->
     exists d, first_with (fun d => exists_ (candidate d (name ++ txt ".pysh")) = true) paths d /\ p = candidate d (name ++ txt ".pysh")).
  Proof. intros pre name p N Q. unfold find_module. rewrite (last_name_ok pre name N Q). apply find_first. Qed.
  Theorem C80_not_found : forall name ms, ~ In c_dot name -> dget ms name = None -> (forall d, In d paths -> exists_ (candidate d (name ++ txt ".pysh")) = false) ->
    forall old, import_module fresh old exists_ files paths name ms = (ms, None).
  Proof.
    intros name ms N D H old. unfold import_module. rewrite D. destruct old; [|reflexivity]. destruct (find_module exists_ paths name) as [p|] eqn:E; [|reflexivity].
    apply (C80_which_file [] name p N (or_introl eq_refl)) in E. destruct E as (d & F & _). exfalso. clear - F H. induction F as [x l Px|x l y _ _ IH].
    - rewrite (H x (or_introl eq_refl)) in Px. discriminate.
    - apply IH. intros d I. apply H. now right.
  Qed.
  (** If all its statements end normally, the module is what they made of a fresh
      scope, and no other module has changed. *)
  Theorem C80_import_partial : forall name p ms l s', dget ms name = None -> find_module exists_ paths name = Some p -> files p = Some (Program l) -> runs l fresh s' ->
    exists ms', import_module fresh true exists_ files paths name ms = (ms', Some Returned) /\ dget ms' name = Some s' /\
      forall other, other <> name -> dget ms' other = dget ms other.
  Proof.
    intros name p ms l s' D F E R. exists (dset ms name s'). unfold import_module, load_module. rewrite D, F, E, (file_runs _ _ _ R). split; [reflexivity|].
    split; [rewrite dget_dset, keqb_refl; reflexivity|]. intros other N. rewrite dget_dset, keqb_neq by exact N. reflexivity.
  Qed.
  (** A module is executed once. *)
  Theorem C80_again : forall old name ms s, dget ms name = Some s -> import_module fresh old exists_ files paths name ms = (ms, Some Returned).
  Proof. intros old name ms s H. unfold import_module. now rewrite H. Qed.
  (** But if a statement raises, the import succeeds nevertheless, with a module
      that stops in the middle ... *)
  Theorem C80_failed_import_refuted : forall name p ms l s', dget ms name = None -> find_module exists_ paths name = Some p -> files p = Some (Program l) ->
    stops l fresh s' Raised ->
    exists ms', import_module fresh true exists_ files paths name ms = (ms', Some Returned) /\ dget ms' name = Some s'.
  Proof.
    intros name p ms l s' D F E R. exists (dset ms name s'). unfold import_module, load_module. rewrite D, F, E, (file_raises _ _ _ R). split; [reflexivity|]. rewrite dget_dset, keqb_refl; reflexivity.
  Qed.
  (** ... and so it does, with nothing in it, if the file is no python at all. *)
  Theorem C80_not_python_refuted : forall name p ms, dget ms name = None -> find_module exists_ paths name = Some p -> files p = Some NotPython ->
    exists ms', import_module fresh true exists_ files paths name ms = (ms', Some Returned) /\ dget ms' name = Some fresh.
  Proof.
    intros name p ms D F E. exists (dset ms name fresh). unfold import_module, load_module. rewrite D, F, E. split; [reflexivity|]. rewrite dget_dset, keqb_refl; reflexivity.
  Qed.
  (** If the file cannot be read the import raises, but only the first time. *)
  Theorem C80_unreadable_refuted : forall name p ms, dget ms name = None -> find_module exists_ paths name = Some p -> files p = None ->
    exists ms', import_module fresh true exists_ files paths name ms = (ms', Some OSErr) /\ import_module fresh true exists_ files paths name ms' = (ms', Some Returned).
  Proof.
    intros name p ms D F E. exists (dset ms name fresh). unfold import_module at 1. unfold load_module. rewrite D, F, E. split; [reflexivity|].
    apply C80_again with (s := fresh). rewrite dget_dset, keqb_refl; reflexivity.
  Qed.
  (** With python 3.12 or later no .pysh module can be imported. *)
  Theorem C80_python312_refuted : forall name ms, dget ms name = None -> import_module fresh false exists_ files paths name ms = (ms, None).
  Proof. intros name ms H. unfold import_module. now rewrite H. Qed.
End Modules.
Print Assumptions C80_which_file.
Print Assumptions C80_not_found.
Print Assumptions C80_import_partial.
Print Assumptions C80_again.
Print Assumptions C80_failed_import_refuted.
Print Assumptions C80_not_python_refuted.
Print Assumptions C80_unreadable_refuted.
Print Assumptions C80_python312_refuted.

(** C81.  Files whose statements all end normally are executed in order, to the
    end, with status 0. *)
Inductive runs_all {S} : list (option (program S)) -> S -> S -> Prop :=
| ra_nil s : runs_all [] s s
| ra_cons l fs s s1 s' : runs l s s1 -> runs_all fs s1 s' -> runs_all (Some (Program l) :: fs) s s'.
Theorem C81_success : forall S (fs : list (option (program S))) s s', runs_all fs s s' -> shell_files fs s = (s', 0).
Proof.
  intros S fs s s'. unfold shell_files. assert (H : runs_all fs s s' -> execute_files fs s = (s', Returned)); [|intros R; now rewrite (H R)].
  induction 1 as [s|l fs s s1 s' R _ IH]; [reflexivity|]. cbn [execute_files]. now rewrite (file_runs _ _ _ R).
Qed.
Print Assumptions C81_success.
(** sys.exit(n) ends everything with status n; a file that cannot be read, with
    status 1. *)
Theorem C81_exit : forall S (before : list (option (program S))) f after s s1 s' n, runs_all before s s1 ->
  (exists l, f = Some (Program l) /\ stops l s1 s' (Exits n)) \/ (f = None /\ s' = s1 /\ n = 1) ->
  shell_files (before ++ f :: after) s = (s', n).
Proof.
  intros S before f after s s1 s' n R H. unfold shell_files. assert (E : exists e, execute_files (before ++ f :: after) s = (s', e) /\ status e = n).
  { induction R as [s|l fs s s1 s2 R _ IH]; cbn [List.app execute_files].
    - destruct H as [(l & -> & T)|(-> & -> & ->)]; [rewrite (file_exits _ _ _ _ T)|]; eexists; split; reflexivity.
    - rewrite (file_runs _ _ _ R). apply IH. exact H. }
  destruct E as (e & E & <-). now rewrite E.
Qed.
Print Assumptions C81_exit.
(** But a script that raises counts as successful: the next file is executed, as
    if nothing had happened, and so is a file that is no python. *)
Theorem C81_failed_script_refuted : forall S (l : list (stmt S)) fs s s', stops l s s' Raised -> shell_files (Some (Program l) :: fs) s = shell_files fs s'.
Proof. intros S l fs s s' H. unfold shell_files. cbn [execute_files]. now rewrite (file_raises _ _ _ H). Qed.
Print Assumptions C81_failed_script_refuted.
Theorem C81_not_python_refuted : forall S fs (s : S), shell_files (Some NotPython :: fs) s = shell_files fs s.
Proof. reflexivity. Qed.
Print Assumptions C81_not_python_refuted.
(** The status of --cmd is 0 whether or not the command failed ... *)
Theorem C81_cmd_refuted : forall S (x : stmt S) s s' o, x s = (s', o) -> o = Done \/ o = Raised -> shell_cmd (Program [x]) s = (s', 0).
Proof. intros S x s s' o H [-> | ->]; unfold shell_cmd, execute_file, runsource; cbn [exec]; rewrite H; reflexivity. Qed.
Print Assumptions C81_cmd_refuted.
(** ... that of --pcmd (a pipeline sent with remote) tells. *)
Theorem C81_pcmd : forall S (run : stmt S) s s' o, run s = (s', o) -> o = Done \/ o = Raised -> exists n, shell_pcmd run s = (s', n) /\ (n = 0 <-> o = Done).
Proof. intros S run s s' o H [-> | ->]; unfold shell_pcmd; rewrite H; eexists; (split; [reflexivity|]); split; congruence || discriminate. Qed.
Print Assumptions C81_pcmd.
(** Statements on a list of numbers: append, fail, exit. *)
Definition put (n : nat) : stmt (list nat) := fun s => (s ++ [n], Done).
Definition bad : stmt (list nat) := fun s => (s, Raised).
Definition leave (n : nat) : stmt (list nat) := fun s => (s, Exits n).
Definition tree (p : text) : option (program (list nat)) :=
  if text_eqb p (txt "lib/a.pysh") then Some (Program [put 1; put 2]) else if text_eqb p (txt "lib/b.pysh") then Some (Program [put 1; bad; put 2])
  else if text_eqb p (txt "./c.pysh") then Some NotPython else None.
Definition there (p : text) : bool := match tree p with Some _ => true | None => text_eqb p (txt "lib/d.pysh") end.
Example C80_nonvacuous :
  import_module [] true there tree [[]; txt "lib"] (txt "a") [] = ([(txt "a", [1; 2])], Some Returned) /\
  import_module [] true there tree [[]; txt "lib"] (txt "b") [] = ([(txt "b", [1])], Some Returned) /\
  import_module [] true there tree [[]; txt "lib"] (txt "c") [] = ([(txt "c", [])], Some Returned) /\
  import_module [] true there tree [[]; txt "lib"] (txt "d") [] = ([(txt "d", [])], Some OSErr) /\
  import_module [] true there tree [[]; txt "lib"] (txt "e") [] = ([], None) /\
  runs [put 1; put 2] [] [1; 2] /\ stops [put 1; bad; put 2] [] [1] Raised.
Proof.
  repeat (split; [vm_compute; reflexivity|]). split; [repeat econstructor|].
  apply (stops_at [put 1] bad [put 2] [] [1] [1] Raised); [repeat econstructor|reflexivity|discriminate].
Qed.
Example C81_nonvacuous :
  shell_files [Some (Program [put 1; put 2]); Some (Program [put 3])] [] = ([1; 2; 3], 0) /\
  shell_files [Some (Program [put 1; bad; put 2]); Some (Program [put 3])] [] = ([1; 3], 0) /\
  shell_files [Some (Program [put 1; leave 4; put 2]); Some (Program [put 3])] [] = ([1], 4) /\
  shell_files [None; Some (Program [put 3])] [] = ([], 1) /\ shell_cmd (Program [bad]) [] = ([], 0) /\ shell_pcmd bad [] = ([], 1).
Proof. repeat split. Qed.
