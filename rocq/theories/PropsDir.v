(** C79: completing a command name offers exactly the programs there are. *)
From Verif Require Import Py PathModel PathSpec DirModel DirSpec DirProofs.
From Coq Require Import Permutation Sorted.

(** Without a cached list, dir(env) is the alphabetical list of all that is in
    the directories of PATH (relative to the environment's directory, whatever
    the process's) and of the builtins ... *)
Theorem C79_fresh_partial : forall s cwd pcwd l, d_cwd s = render cwd -> dir_ok cwd -> d_cache s = None ->
  (snd (do_dir s pcwd) = Ok l <-> completions s cwd l).
Proof.
  intros s cwd pcwd l C O N. split.
  - destruct (do_dir s pcwd) as [s' r] eqn:E. cbn. intros ->. eapply fresh; eassumption.
  - intros H. now rewrite (fresh_all s cwd pcwd l C O N H).
Qed.
Print Assumptions C79_fresh_partial.
(** ... also after env._clear_dir_cache(), at any time. *)
Theorem C79_cleared : forall s ops, d_cache (dsteps s (ops ++ [DClear])) = None.
Proof. intros s ops. unfold dsteps. rewrite fold_left_app. reflexivity. Qed.
Print Assumptions C79_cleared.
(** But the first answer is the answer for ever, whatever is installed, removed,
    or assigned to PATH, and clear_dir_cache does not help. *)
Theorem C79_stale_refuted : forall s pcwd l ops pcwd', snd (do_dir s pcwd) = Ok l -> ~ In DClear ops ->
  snd (do_dir (dsteps (dstep s (DDir pcwd)) ops) pcwd') = Ok l.
Proof.
  intros s pcwd l ops pcwd' H N. destruct (dir_caches s pcwd) as (c & E & F). cbn [dstep].
  rewrite (dir_cached _ c); [|now apply cache_kept]. cbn. now rewrite (F l H).
Qed.
Print Assumptions C79_stale_refuted.
Theorem C79_builtin_refuted : forall s pcwd l pcwd', snd (do_dir s pcwd) = Ok l ->
  snd (do_dir (dsteps s [DDir pcwd; DClearBuiltin]) pcwd') = Ok l.
Proof. intros s pcwd l pcwd' H. apply (C79_stale_refuted s pcwd l [DClearBuiltin] pcwd' H). intros [E|[]]. discriminate. Qed.
Print Assumptions C79_builtin_refuted.
(** And if one directory of PATH cannot be read, the first dir() raises and every
    later one offers what was in the directories before it: no builtins, nothing
    of the directories after it. *)
Theorem C79_missing_directory_refuted : forall s cwd path good bad rest ls pcwd ops pcwd', d_cwd s = render cwd -> dir_ok cwd -> d_cache s = None ->
  d_path s = Some path -> pieces path (good ++ bad :: rest) -> listing (d_list s) cwd good ls -> d_list s (render (resolve cwd bad)) = None -> ~ In DClear ops ->
  snd (do_dir s pcwd) = Err (OSError ENOENT) /\
  exists l, snd (do_dir (dsteps (dstep s (DDir pcwd)) ops) pcwd') = Ok l /\ Permutation l (List.concat ls) /\ StronglySorted alphabetical l.
Proof.
  intros s cwd path good bad rest ls pcwd ops pcwd' C O N P D L B NC. apply pieces_split in D.
  assert (E : do_dir s pcwd = (set_cache s (Some (List.concat ls)), Err (OSError ENOENT))).
  { unfold do_dir. rewrite N, P, D. rewrite (list_dirs_fails s cwd pcwd _ C O good bad rest ls []) by (try reflexivity; assumption). reflexivity. }
  split; [now rewrite E|]. cbn [dstep]. rewrite E. cbn [fst]. rewrite (dir_cached _ (List.concat ls)) by (apply cache_kept; [reflexivity|exact NC]).
  eexists. split; [reflexivity|]. split; [apply sort_perm|apply sort_ok].
Qed.
Print Assumptions C79_missing_directory_refuted.
(** The list is determined by these conditions. *)
Theorem C79_unique : forall s cwd l m, completions s cwd l -> completions s cwd m -> l = m.
Proof. exact completions_fun. Qed.
Print Assumptions C79_unique.
Definition files (p : list N) : option (list (list N)) :=
  if text_eqb p (txt "/bin") then Some [txt "sh"; txt "ls"] else if text_eqb p (txt "/home/x/bin") then Some [txt "mine"] else None.
Definition start (path : string) : denv := mkD files (Some (txt path)) (txt "/home/x") [txt "cd"; txt "bg"] None.
Example C79_nonvacuous :
  txt "/home/x" = render (mkDir false [txt "home"; txt "x"]) /\
  snd (do_dir (start "/bin:bin") (txt "/tmp")) = Ok [txt "bg"; txt "cd"; txt "ls"; txt "mine"; txt "sh"] /\
  snd (do_dir (dsteps (start "/bin") [DDir (txt "/"); DPath (Some (txt "/bin:bin")); DClearBuiltin]) (txt "/")) = Ok [txt "bg"; txt "cd"; txt "ls"; txt "sh"] /\
  snd (do_dir (start "/bin:/sbin:bin") (txt "/")) = Err (OSError ENOENT) /\
  snd (do_dir (dsteps (start "/bin:/sbin:bin") [DDir (txt "/")]) (txt "/")) = Ok [txt "ls"; txt "sh"] /\
  pieces (txt "/bin:/sbin") [txt "/bin"; txt "/sbin"].
Proof. repeat (split; [vm_compute; reflexivity|]). apply pieces_split. vm_compute. reflexivity. Qed.
