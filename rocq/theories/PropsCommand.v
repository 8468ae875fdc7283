(** C31, C32 and C56: spelling a command line. *)
From Verif Require Import Py PathModel EnvModel ExpandModel ExpandSpec CommandModel CommandSpec CommandProofs PropsExpand.

(** C31.  Two ways of writing the same words - attributes, calls with positional
    and named arguments, "-option" - give the same command; its arguments are
    exactly the words, and it is a builtin exactly if the first word is the
    name of one. *)
Theorem C31_spelling_irrelevant : forall first1 ss1 first2 ss2, ~ In first1 env_reserved -> ~ In first2 env_reserved ->
  Forall writable ss1 -> Forall writable ss2 -> spelled first1 ss1 = spelled first2 ss2 ->
  spell_env first1 ss1 = spell_env first2 ss2.
Proof. exact same_words. Qed.
Print Assumptions C31_spelling_irrelevant.
Theorem C31_denotes_words : forall first ss c, ~ In first env_reserved -> Forall writable ss -> spell_env first ss = Ok c ->
  c_arg c = spelled first ss /\
  (forall b, c_cls c = CBuiltin b <-> In b builtin_names /\ exists rest, spelled first ss = AStr b :: rest).
Proof. exact spelled_command. Qed.
Print Assumptions C31_denotes_words.
(** It fails only when the first word cannot be one (a dict, a list ...). *)
Theorem C31_fails_iff : forall first ss, ~ In first env_reserved -> Forall writable ss ->
  ((exists e, spell_env first ss = Err e) <-> exists a rest, spelled first ss = a :: rest /\ ((exists kw, a = ADict kw) \/ exists fd, a = APipe false fd)).
Proof.
  intros first ss H F. rewrite spell_env_words by assumption. destruct (spelled first ss) as [|a l]; cbn [construct].
  - split; [intros [e E]; discriminate|intros (a & r & E & _); discriminate].
  - split.
    + intros [e E]. exists a, l. split; [reflexivity|].
      destruct a as [t|t|t p|h fd|kw]; cbn [dispatch bind_res] in E; try discriminate; [destruct h; [discriminate|right; eauto]|left; eauto].
    + intros (a' & r & E & D). injection E as <- <-. destruct D as [[kw ->]|[fd ->] ]; cbn; eauto.
Qed.
Print Assumptions C31_fails_iff.
(** The restriction matters: these attributes never add a word. *)
Theorem C31_reserved_names : forall c n, In n (map txt ["run"; "run_interactive"; "async_run_interactive"; "to_dataframe"; "mro"]%string) ->
  get_attr c n = Ok RThing.
Proof. exact reserved_no_word. Qed.
Print Assumptions C31_reserved_names.
Example C31_nonvacuous :
  let a := spell_env (txt "git") [SAttr (txt "log"); SMinus (txt "p"); SCall [AStr (txt "x")] [(txt "all", KTrue)] ] in
  let b := spell_env (txt "_") [SCall [AStr (txt "git"); AStr (txt "log")] []; SCall [AStr (txt "-p"); AStr (txt "x"); ADict [(txt "all", KTrue)] ] [] ] in
  a = b /\ a = Ok (mkCmd CCmd [AStr (txt "git"); AStr (txt "log"); AStr (txt "-p"); AStr (txt "x"); ADict [(txt "all", KTrue)] ]) /\
  spell_env (txt "_") [SAttr (txt "cd"); SCall [AStr (txt "/")] [] ] = Ok (mkCmd (CBuiltin (txt "cd")) [AStr (txt "cd"); AStr (txt "/")]) /\
  spell_env (txt "docker") [SAttr (txt "run")] = Err PlainException.
Proof. vm_compute. repeat split. Qed.

(** C32.  The argument vector is the concatenation of what the arguments stand
    for, in order. *)
Theorem C32_concatenation : forall w cwd sc args ws,
  arg_list w cwd sc args = Ok ws <-> exists parts, Forall2 (contributes w cwd sc) args parts /\ ws = List.concat parts.
Proof. exact arg_list_spec. Qed.
Print Assumptions C32_concatenation.
(** In particular raw strings appear as they are, whatever they contain. *)
Theorem C32_raw_verbatim : forall w cwd sc ts, arg_list w cwd sc (map AR ts) = Ok (map WStr ts) /\ exec_argv (map WStr ts) = Ok ts.
Proof.
  intros w cwd sc ts. split.
  - induction ts as [|t ts IH]; [reflexivity|]. cbn. rewrite IH. reflexivity.
  - rewrite strings_exec; [rewrite map_map; cbn; now rewrite map_id|]. intros x I. apply in_map_iff in I as (t & <- & _). eauto.
Qed.
Print Assumptions C32_raw_verbatim.
Example C32_nonvacuous :
  arg_list (world_of a_tree) (txt "/home") some_vars
    [AStr (txt "tar"); AStr (txt "*.c"); ADict [(txt "max_depth", KVal (AObj (txt "3") false)); (txt "v", KTrue); (txt "q", KFalse); (txt "o", KVal (AR (txt "*")))]; APipe true 12; AR (txt "~%")]
  = Ok (map (fun s => WStr (txt s)) ["tar"; "./x.c"; "./y.c"; "--max-depth=3"; "--v"; "--o=*"; "/dev/fd/12"; "~%"]%string).
Proof. vm_compute. reflexivity. Qed.

(** C56 is false: an object that is neither string nor path (a number) among the
    positional arguments makes every command fail with status 255 ... *)
Theorem C56_number_refuted : forall w cwd sc run args t ws, In (AObj t false) args -> arg_list w cwd sc args = Ok ws -> child_status run ws = 255%N.
Proof. exact object_fails. Qed.
Print Assumptions C56_number_refuted.
(** ... while as a named argument it is passed as its string. *)
Theorem C56_named_partial : forall w cwd sc n m t p, dashed n m ->
  arg_list w cwd sc [ADict [(n, KVal (AObj t p))] ] = Ok [WStr (txt "--" ++ m ++ txt "=" ++ t)].
Proof. intros w cwd sc n m t p D. apply dashes_dashed in D. subst m. reflexivity. Qed.
Print Assumptions C56_named_partial.
Example C56_nonvacuous : arg_list (world_of a_tree) [c_slash] some_vars [AStr (txt "sleep"); AObj (txt "1") false] = Ok [WStr (txt "sleep"); WObj (txt "1") false].
Proof. reflexivity. Qed.
