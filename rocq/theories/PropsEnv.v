(** C35-C38, C53: directories and variables of environments. *)
From Verif Require Import Py PathModel PathSpec PathProofs EnvModel EnvSpec EnvProofs.

(** C35: whatever happened, the directory of every environment is an absolute
    path without ".", ".." or empty components, written in the one normal form. *)
Theorem C35_always_normal : forall w e, reachable w -> e < List.length (w_envs w) -> exists d, is_dir (e_cwd (env_at w e)) d.
Proof. exact (fun w e R H => proj1 (env_ok_at w e (reachable_inv w R) H)). Qed.
Print Assumptions C35_always_normal.
(** Normal forms are unique: a path denotes one list of names. *)
Theorem C35_unique : forall p d1 d2, is_dir p d1 -> is_dir p d2 -> d1 = d2.
Proof. exact (fun p d1 d2 H1 H2 => render_inj d1 d2 (proj1 H1) (proj1 H2) (eq_trans (eq_sym (proj2 H1)) (proj2 H2))). Qed.
Print Assumptions C35_unique.
(** A sequence of successful cd's ends where walking the operands one after the
    other ends ... *)
Theorem C35_sequence : forall w e d ps w', is_dir (e_cwd (env_at w e)) d -> e < List.length (w_envs w) ->
  Forall (fun p => startswith p [c_tilde] = false) ps -> cds w e ps = (w', Ok tt) ->
  is_dir (e_cwd (env_at w' e)) (fold_left resolve ps d).
Proof. exact (fun w e d ps w' Hd He Hp H => cds_plain ps w e d w' Hd He Hp H). Qed.
Print Assumptions C35_sequence.
(** ... an operand ~name/rest starts at that user's home ... *)
Theorem C35_home : forall w e name rest h dh w', reachable w -> e < List.length (w_envs w) ->
  ~ In c_slash name -> rest = [] \/ is_abs rest -> m_home (w_m w) name = Some h -> is_dir h dh -> d_names dh <> [] ->
  do_cd w e (c_tilde :: name ++ rest) = (w', Ok tt) -> is_dir (e_cwd (env_at w' e)) (walk dh rest).
Proof.
  exact (fun w e n r h dh w' R He Hn Hr Hh Hd Hne H =>
    match inv_p w (reachable_inv w R) with
    | ex_intro _ dp Hp => conj (walk_ok dh r (proj1 Hd))
        (eq_trans (proj1 (proj2 (do_cd_ok w e _ w' He H))) (expand_home w _ n r h dh dp Hp Hn Hr Hh Hd Hne))
    end).
Qed.
Print Assumptions C35_home.
(** ... and the cd command takes its operands in the same way, PARENT meaning ..
    and ROOT meaning /, no operand meaning home. *)
Theorem C35_command : forall w e d args w', is_dir (e_cwd (env_at w e)) d -> e < List.length (w_envs w) -> args <> [] ->
  Forall (fun p => startswith p [c_tilde] = false) args ->
  do_cd w e (cd_path args) = (w', Ok tt) -> is_dir (e_cwd (env_at w' e)) (fold_left resolve (map operand args) d).
Proof. exact cd_command_operands. Qed.
Print Assumptions C35_command.
Theorem C35_command_home : forall w e h dh w', reachable w -> e < List.length (w_envs w) -> m_home (w_m w) [] = Some h -> is_dir h dh -> d_names dh <> [] ->
  do_cd w e (cd_path []) = (w', Ok tt) -> e_cwd (env_at w' e) = h.
Proof. exact (fun w e h dh w' R => cd_home w e h dh w' (reachable_inv w R)). Qed.
Print Assumptions C35_command_home.
(** A cd to a path that does not exist raises and changes nothing. *)
Theorem C35_missing : forall w e d p, is_dir (e_cwd (env_at w e)) d -> startswith p [c_tilde] = false ->
  m_kind (w_m w) (render (resolve d p)) = None -> do_cd w e p = (w, Err (OSError ENOENT)).
Proof.
  exact (fun w e d p Hd Hp K => do_cd_missing w e p
    (eq_trans (f_equal (m_kind (w_m w)) (eq_trans (f_equal (fun c => expand_path w c p) (proj2 Hd)) (expand_plain w d p (proj1 Hd) Hp))) K)).
Qed.
Print Assumptions C35_missing.
(** A cd to an existing directory never fails, changes only this environment's
    directory and, for interactive environments only, the process's. *)
Theorem C35_existing : forall w e d p, is_dir (e_cwd (env_at w e)) d -> e < List.length (w_envs w) -> startswith p [c_tilde] = false ->
  m_kind (w_m w) (render (resolve d p)) = Some KDir ->
  exists w', do_cd w e p = (w', Ok tt) /\ e_cwd (env_at w' e) = render (resolve d p) /\ w_dicts w' = w_dicts w /\
    (forall m, m <> e -> env_at w' m = env_at w m) /\
    w_pcwd w' = (if e_inter (env_at w e) then m_real (w_m w) (render (resolve d p)) else w_pcwd w).
Proof. exact cd_existing. Qed.
Print Assumptions C35_existing.

(** C53: cd only accepts directories.  Refuted: a regular file is accepted as
    the directory of a non-interactive environment; an interactive one raises,
    but has the file as its directory afterwards. *)
Theorem C53_cd_to_file_refuted : forall w e d p, is_dir (e_cwd (env_at w e)) d -> e < List.length (w_envs w) -> startswith p [c_tilde] = false ->
  m_kind (w_m w) (render (resolve d p)) = Some KFile ->
  e_cwd (env_at (fst (do_cd w e p)) e) = render (resolve d p) /\
  snd (do_cd w e p) = (if e_inter (env_at w e) then Err (OSError EPERM) else Ok tt).
Proof. exact cd_to_file. Qed.
Print Assumptions C53_cd_to_file_refuted.

(** C36: relative paths (of any shape but a leading ~) are resolved against the
    environment's directory, whatever the process's directory is. *)
Theorem C36_relative_to_environment_partial : forall w d p, dir_ok d -> startswith p [c_tilde] = false ->
  expand_path w (render d) p = render (resolve d p).
Proof. exact expand_plain. Qed.
Print Assumptions C36_relative_to_environment_partial.
(** The full claim fails for "~name..." when there is no such user: python
    leaves it alone and it is then taken relative to the process's directory;
    the environment's plays no role. *)
Theorem C36_unknown_user_refuted : forall w cwd name rest dp, is_dir (w_pcwd w) dp -> ~ In c_slash name -> rest = [] \/ is_abs rest ->
  m_home (w_m w) name = None ->
  expand_path w cwd (c_tilde :: name ++ rest) = render (resolve dp (c_tilde :: name ++ rest)).
Proof. exact (fun w cwd n r dp => expand_unknown w cwd n r dp). Qed.
Print Assumptions C36_unknown_user_refuted.

(** C37: a derived environment starts with the directory and the variables of
    its source; deriving changes no existing environment. *)
Theorem C37_starts_as_copy : forall w e i w' n, reachable w -> e < List.length (w_envs w) -> do_derive w e None None i = (w', Ok n) ->
  e_cwd (env_at w' n) = e_cwd (env_at w e) /\ exports w' (env_at w' n) = exports w (env_at w e) /\
  (forall m, m < List.length (w_envs w) -> same_view w w' m) /\ n = List.length (w_envs w).
Proof. exact derive_copy. Qed.
Print Assumptions C37_starts_as_copy.
Theorem C37_given_directory : forall w e p ex i w' n d, reachable w -> e < List.length (w_envs w) ->
  (forall r, ex = Some r -> r < List.length (w_dicts w)) ->
  is_dir (e_cwd (env_at w e)) d -> startswith p [c_tilde] = false -> do_derive w e (Some p) ex i = (w', Ok n) ->
  is_dir (e_cwd (env_at w' n)) (resolve d p) /\ forall m, m < List.length (w_envs w) -> env_at w' m = env_at w m.
Proof. exact derive_dir. Qed.
Print Assumptions C37_given_directory.
(** Afterwards, any history of operations by anybody, none of which works on
    the new environment itself, is invisible in it ... *)
Theorem C37_others_invisible_partial : forall w e c i w' n ops, reachable w -> e < List.length (w_envs w) -> do_derive w e c None i = (w', Ok n) ->
  exports w (env_at w e) <> [] ->
  history_ok w' ops (List.length (w_dicts w)) -> Forall (fun o => ~ targets o n) ops -> same_view w' (steps w' ops) n.
Proof. exact (fun w e c i w' n ops R => derived_unaffected w e c i w' n ops (reachable_inv w R)). Qed.
Print Assumptions C37_others_invisible_partial.
(** ... in any history at all its variables are what its own assignments made
    of the copy ... *)
Theorem C37_variables_history_partial : forall w e c i w' n ops, reachable w -> e < List.length (w_envs w) -> do_derive w e c None i = (w', Ok n) ->
  history_ok w' ops (List.length (w_dicts w)) ->
  (forall k, fold_left (own_vars n) (firstn k ops) (exports w (env_at w e)) <> []) ->
  exports (steps w' ops) (env_at (steps w' ops) n) = fold_left (own_vars n) ops (exports w (env_at w e)).
Proof. exact (fun w e c i w' n ops R => derived_history w e c i w' n ops (reachable_inv w R)). Qed.
Print Assumptions C37_variables_history_partial.
(** ... and its own operations are invisible in every other environment. *)
Theorem C37_own_invisible_partial : forall w e c i w' n ops m, reachable w -> e < List.length (w_envs w) -> do_derive w e c None i = (w', Ok n) ->
  history_ok w' ops (List.length (w_dicts w)) -> Forall (fun o => targets o n) ops ->
  (forall k, fold_left (own_vars n) (firstn k ops) (exports w (env_at w e)) <> []) ->
  m < List.length (w_envs w) -> same_view w (steps w' ops) m.
Proof. exact (fun w e c i w' n ops m R => derived_changes_nothing_else w e c i w' n ops m (reachable_inv w R)). Qed.
Print Assumptions C37_own_invisible_partial.
(** Deriving needs the source's directory to exist still, even if another one
    is given. *)
Theorem C37_directory_gone_refuted : forall w e c ex i, reachable w -> e < List.length (w_envs w) ->
  m_kind (w_m w) (e_cwd (env_at w e)) = None -> snd (do_derive w e c ex i) = Err (OSError ENOENT).
Proof. exact derive_gone. Qed.
Print Assumptions C37_directory_gone_refuted.

(** C38: explicit variables are used exactly, unless there are none ... *)
Theorem C38_exact_partial : forall w e c r i w' n, reachable w -> e < List.length (w_envs w) -> r < List.length (w_dicts w) ->
  do_derive w e c (Some r) i = (w', Ok n) -> dict_at w r <> [] -> exports w' (env_at w' n) = dict_at w r.
Proof. exact (fun w e c r i w' n R He Hr H => proj1 (derive_exports w e c r i w' n (reachable_inv w R) He Hr H)). Qed.
Print Assumptions C38_exact_partial.
Theorem C38_exact_new_partial : forall w c r i w' n, do_new w c (Some r) i = (w', Ok n) -> dict_at w r <> [] ->
  exports w' (env_at w' n) = dict_at w r.
Proof. exact (fun w c r i w' n H => proj1 (new_exports w c r i w' n H)). Qed.
Print Assumptions C38_exact_new_partial.
(** ... an empty dictionary means the variables of the shell process. *)
Theorem C38_empty_refuted : forall w e c r i w' n, reachable w -> e < List.length (w_envs w) -> r < List.length (w_dicts w) ->
  do_derive w e c (Some r) i = (w', Ok n) -> dict_at w r = [] -> exports w' (env_at w' n) = dict_at w 0.
Proof. exact (fun w e c r i w' n R He Hr H => proj2 (derive_exports w e c r i w' n (reachable_inv w R) He Hr H)). Qed.
Print Assumptions C38_empty_refuted.

(** A concrete machine: /, /home, /home/ann, /home/ann/src are directories and
    /home/ann/x is a file. *)
Definition dirs : list text := [txt "/"; txt "/home"; txt "/home/ann"; txt "/home/ann/src"].
Definition some_machine : machine :=
  mkMachine (fun u => if text_eqb u [] then Some (txt "/home/ann") else if text_eqb u (txt "ann") then Some (txt "/home/ann") else None)
    (fun p => if existsb (text_eqb p) dirs then Some KDir else if text_eqb p (txt "/home/ann/x") then Some KFile else None)
    (fun p => if existsb (text_eqb p) dirs then p else txt "/") (fun _ => []).
Definition start_world : world := mkW some_machine (txt "/home") [[(txt "PATH", txt "/bin"); (txt "A", txt "1")]] [].
Definition mk (t : list string) : dir := mkDir false (map txt t).
Lemma some_machine_ok : machine_ok some_machine.
Proof.
  intros p. unfold some_machine. cbn [m_real]. unfold dirs. cbn [existsb].
  assert (OK : forall t, Forall name_ok (map txt t) -> exists d, dir_ok d /\ render (mk t) = render d) by (intros t F; exists (mk t); easy).
  assert (N1 : name_ok (txt "home")) by (repeat split; try discriminate; cbn; intuition discriminate).
  assert (N2 : name_ok (txt "ann")) by (repeat split; try discriminate; cbn; intuition discriminate).
  assert (N3 : name_ok (txt "src")) by (repeat split; try discriminate; cbn; intuition discriminate).
  destruct (text_eqb_spec p (txt "/")) as [->|]; [apply (OK []); constructor|].
  destruct (text_eqb_spec p (txt "/home")) as [->|]; [apply (OK ["home"%string]); repeat constructor; apply N1|].
  destruct (text_eqb_spec p (txt "/home/ann")) as [->|]; [apply (OK ["home"%string; "ann"%string]); repeat constructor; try apply N1; apply N2|].
  destruct (text_eqb_spec p (txt "/home/ann/src")) as [->|]; [apply (OK ["home"%string; "ann"%string; "src"%string]); repeat constructor; try apply N1; try apply N2; apply N3|].
  cbn. apply (OK []); constructor.
Qed.
Lemma start_reachable : reachable start_world.
Proof.
  apply (r_start some_machine (txt "/home") _ (mk ["home"%string])); [apply some_machine_ok|].
  split; [|reflexivity]. constructor; [|constructor]. repeat split; try discriminate. cbn; intuition discriminate.
Qed.
Definition w1 := step start_world (ONew (Some (txt "ann/../ann//./src/..")) None false).
Lemma w1_reachable : reachable w1. Proof. apply r_step; [apply start_reachable|exact I]. Qed.
Example C35_nonvacuous : e_cwd (env_at w1 0) = txt "/home/ann" /\
  e_cwd (env_at (fst (cds w1 0 [txt "src"; txt "..//.."; txt "/home/./ann"; txt "src"])) 0) = txt "/home/ann/src" /\
  snd (cds w1 0 [txt "src"; txt "..//.."; txt "/home/./ann"; txt "src"]) = Ok tt /\
  e_cwd (env_at (fst (do_cd w1 0 (txt "~ann/src"))) 0) = txt "/home/ann/src" /\
  e_cwd (env_at (fst (do_cd w1 0 (cd_path [txt "PARENT"; txt "PARENT"]))) 0) = txt "/" /\
  e_cwd (env_at (fst (do_cd w1 0 (cd_path [txt "ROOT"; txt "home"]))) 0) = txt "/home" /\
  e_cwd (env_at (fst (do_cd w1 0 (cd_path []))) 0) = txt "/home/ann" /\
  do_cd w1 0 (txt "nothere") = (w1, Err (OSError ENOENT)) /\ exists d, is_dir (e_cwd (env_at w1 0)) d.
Proof.
  split; [vm_compute; reflexivity|]. split; [vm_compute; reflexivity|]. split; [vm_compute; reflexivity|]. split; [vm_compute; reflexivity|].
  split; [vm_compute; reflexivity|]. split; [vm_compute; reflexivity|]. split; [vm_compute; reflexivity|].
  split; [|apply C35_always_normal; [apply w1_reachable|vm_compute; lia] ].
  assert (e_cwd (env_at w1 0) = txt "/home/ann") as E by (vm_compute; reflexivity).
  apply (C35_missing w1 0 (mk ["home"%string; "ann"%string])); [|reflexivity|vm_compute; reflexivity].
  split; [|exact E]. repeat constructor; try discriminate; cbn; intuition discriminate.
Qed.
Definition w1i := step start_world (ONew (Some (txt "ann")) None true).
Example C53_nonvacuous :
  snd (do_cd w1 0 (txt "x")) = Ok tt /\ e_cwd (env_at (fst (do_cd w1 0 (txt "x"))) 0) = txt "/home/ann/x" /\
  snd (do_cd w1i 0 (txt "x")) = Err (OSError EPERM) /\ e_cwd (env_at (fst (do_cd w1i 0 (txt "x"))) 0) = txt "/home/ann/x".
Proof. vm_compute. repeat split. Qed.
(** The process is in /home, the environment in /home/ann. *)
Example C36_nonvacuous : expand_path w1 (e_cwd (env_at w1 0)) (txt "src/../f") = txt "/home/ann/f" /\
  expand_path w1 (e_cwd (env_at w1 0)) (txt "~bob/f") = txt "/home/~bob/f".
Proof. vm_compute. repeat split. Qed.
Definition w2 := fst (do_derive w1 0 None None None).
Definition w2_ops := [OSet 0 (txt "A") (txt "2"); OCd 0 (txt "src"); ODel 0 (txt "PATH"); ODerive 1 (Some (txt "src")) None None; OSet 2 (txt "B") (txt "3"); OChdir (txt "/")].
Example C37_nonvacuous : snd (do_derive w1 0 None None None) = Ok 1 /\ history_ok w2 w2_ops (List.length (w_dicts w1)) /\
  exports w1 (env_at w1 0) <> [] /\
  Forall (fun o => ~ targets o 1) w2_ops /\ exports (steps w2 w2_ops) (env_at (steps w2 w2_ops) 0) = [(txt "A", txt "2")] /\
  exports (steps w2 w2_ops) (env_at (steps w2 w2_ops) 1) = [(txt "PATH", txt "/bin"); (txt "A", txt "1")] /\
  e_cwd (env_at (steps w2 w2_ops) 0) = txt "/home/ann/src" /\ e_cwd (env_at (steps w2 w2_ops) 1) = txt "/home/ann".
Proof.
  split; [vm_compute; reflexivity|]. split; [vm_compute; intuition lia|]. split; [vm_compute; discriminate|].
  split; [unfold w2_ops; repeat constructor; cbn; lia|]. vm_compute. repeat split.
Qed.
(** Without the "never empty" premise independence fails: an environment whose
    last variable is deleted writes to the variables of the process. *)
Definition empty_ops := [ODel 1 (txt "PATH"); ODel 1 (txt "A"); OSet 1 (txt "B") (txt "9")].
Theorem C37_emptied_refuted : exists w e w' n ops m, reachable w /\ e < List.length (w_envs w) /\ do_derive w e None None None = (w', Ok n) /\
  history_ok w' ops (List.length (w_dicts w)) /\ Forall (fun o => targets o n) ops /\ m < List.length (w_envs w) /\ ~ same_view w (steps w' ops) m.
Proof.
  exists w1, 0, w2, 1, empty_ops, 0. split; [apply w1_reachable|]. split; [vm_compute; lia|]. split; [vm_compute; reflexivity|].
  split; [vm_compute; intuition lia|]. split; [unfold empty_ops; repeat constructor|]. split; [vm_compute; lia|].
  intros [_ H]. vm_compute in H. discriminate.
Qed.
Print Assumptions C37_emptied_refuted.
Example C38_nonvacuous :
  let w := steps w1 [ODictNew [(txt "X", txt "y")]; ODictNew []] in
  exports (fst (do_derive w 0 None (Some 1) None)) (env_at (fst (do_derive w 0 None (Some 1) None)) 1) = [(txt "X", txt "y")] /\
  exports (fst (do_derive w 0 None (Some 2) None)) (env_at (fst (do_derive w 0 None (Some 2) None)) 1) = [(txt "PATH", txt "/bin"); (txt "A", txt "1")].
Proof. vm_compute. repeat split. Qed.
