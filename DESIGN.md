# Formal model of redhog/pieshell in Coq 8.16.1

## Trusted base

* Coq's kernel (8.16.1, `coqc`, including its `vm_compute` conversion, used in examples and a few finite checks).
* `Print Assumptions` is run after every property theorem in the `Props*.v` files; for each of the theorems listed in MANIFEST.json it
  prints "Closed under the global context": no axiom at all is used, not even of the standard library. No `Axiom`, `Parameter`,
  `Admitted`, section-less `Variable`/`Hypothesis`, functor or module type is defined, no kernel check is switched off. Only the
  standard library is used (Arith, NArith, List, Lia, Bool, String, Ascii, Decimal*). (Tools that list axioms of every *loaded* module
  name seven constants of `Coq.ssr.ssrunder`; they belong to a module type of ssreflect that comes with `Lia`/`Bool` dependencies and no
  theorem here depends on them, as Print Assumptions shows.)
* That the definitions in the `*Model.v` files say what the code in /repo does. Each carries a comment with file and lines and names
  its simplifications. This was checked by reading only (the code cannot be run here).
* That the contracts of the things below the code are right: POSIX descriptor tables and file offsets (`Os.v`, `FileModel.v`), wait
  status words and SIGCHLD delivery (`WorldModel.v`), CPython's str/bytes/dict/% formatting/glob/fnmatch/posixpath/shlex/repr/UTF-8
  (`Py.v`, `PathModel.v`, `ExpandModel.v`, `BashModel.v`, `ReprModel.v`, `Utf8Model.v`), asyncio's "one callback at a time" event loop
  (every interleaving of the atomic pieces between awaits is allowed), bash's `declare` output (`BashSpec.v`).
* That the statements, read with the small `*Spec.v` files, say what properties.jsonl says in English.

Everything the program cannot know is universally quantified in the theorems, not assumed: the scheduler's choices, sizes of reads and
writes, answers of system calls, the file system, home directories, the descriptor table and its limit, which characters python
considers printable, slugify, what bash prints.

## Layout (`rocq/theories/`)

| files | what of /repo/pieshell they model | properties |
|---|---|---|
| `Py.v` | results as value-or-exception, insertion ordered dicts | - |
| `RedirModel/Spec/Proofs`, `PropsRedir` | `redir.py`: Redirect, Redirects as values | C01 C02 |
| `Os.v` | no /repo code: descriptor tables, open/dup/dup2/close/pipe | - |
| `PerformModel/Spec/Proofs` | `redir.py` child side: move_existing_fds, perform, close_other_fds | C03-C05 |
| `RunModel`, `RunSpec`, `RunTopSpec`, `RunWire...`, `RunAssoc`, `RunSameSpec`, `RunPartial`, `PropsRun`, `PropsAssoc`, `PropsPartial` | `pipeline/{base,command,function,pipe,group,redirect}.py` `_run`, `redir.py` make_pipes/close_source_fds, `utils/pipe.py` | C06-C12 C46 C60-C62 |
| `IterModel/Spec/Proofs...`, `PropsIter` | `iterio.py` handlers as transition systems | C13-C17 C19 C20 C47 C48 |
| `Utf8Model/Spec/Proofs`, `PropsText` | decode/encode steps of `iterio.py`, `function.py` | C18 |
| `WorldModel/Spec/...`, `PropsWorld`, `PropsEnd` | `signalio/`, `pipeline/running.py`, fg/bg of `pipeline/builtins.py`, the start of `base.py:run` | C21-C30 C49 |
| `FinishModel/...`, `PropsFinish` | captured output and temporary files in `running.py` | C28 C51 |
| `SigModel/...`, `PropsSig` | signal handler registry, SignalIteratorHandler | C50 C52 |
| `PathModel`, `EnvModel`, `PropsEnv` | posixpath, `environ.py` Environment | C35-C38 C53 |
| `ExpandModel/...`, `PropsExpand` | `_expand_argument` with %, ~, glob, fnmatch | C33 C34 C54 C55 |
| `CommandModel/...`, `PropsCommand` | `command.py` construction and `_arg_list`, `builtin.py` registry | C31 C32 C56 |
| `ScopeModel/...`, `PropsScope` | EnvScope, temporary_env | C39 C40 C57 |
| `CopyModel/...`, `PropsCopy` | `utils/copy.py`, `__deepcopy__` over an explicit heap | C41 |
| `BashModel/...`, `PropsBash` | shlex, parse_declares, BashSource | C42 C43 C59 |
| `TreeModel/...`, `PropsTree` | `tree.py`, `_getkey` | C44 |
| `FileModel/...`, `PropsFile` | contents of files opened with the flags of `redir.py` | C45 C58 |
| `ChildModel/Spec/Proofs/Redir`, `PropsChild` | the forked child: `command.py` `_child`, execvpe, SubShell | C63-C70 |
| `ReprModel/Spec/Proofs`, `PropsRepr` | `_repr`, `__repr__`, `pipeline_repr`, python's repr of str | C71 C72 |
| `ShellModel/Spec/Proofs`, `PropsShell` | `shell.main`, `Remote._run`, base64 | C73 C74 |
| `PickleModel/Spec/Proofs`, `PropsPickle` | `describable_object_reduce`, `__setstate__`, `Environment.__getstate__`, `R`, `SpecialRedirect` under pickle | C75 |
| `LaunchModel/Proofs`, `PropsLaunch` | every `_run` again, with the items begun before a failure | C76 |
| `OperModel/Spec/Proofs`, `PropsOper` | the operators of pipelines under python's precedence, reflection and chaining | C77 |
| `InsertModel/Spec/Proofs`, `PropsInsert` | which commands a run starts: `_arg_list`, `_repr` and the log lines of every `_run` | C78 |
| `DirModel/Spec/Proofs`, `PropsDir` | `Environment.__dir__` and its cache, `clear_dir_cache` | C79 |
| `ScriptModel/Spec/Proofs`, `PropsScript` | `module.Finder/Loader`, `execute_file`, `execute_expr`, `shell.main` | C80, C81 |
| `WordModel/Spec/Proofs`, `PropsWord` | which scope `%(name)s` uses: `_expand_argument`, the `EnvScope` constructor, startup | C82 |
| `CompleteModel/Spec/Proofs`, `PropsComplete` | `_arg_list_sh`, `_complete`, `resources/get_completions` | C83 |
| `PromptModel/Proofs`, `PropsPrompt` | `compress_user` and `prompt` of `default_config.pysh` | C84, C85 |
| `ConfModel/Spec/Proofs`, `PropsConf` | installing and executing the configuration at startup, by several processes with crashes (`execute_startup`, `_copy_resource`) | C86 |
| `NetModel/Spec/Proofs`, `NetTop`, `PropsNet` | a started chain of programs as a network: processes (also infinite ones) with exit statuses, pipes of bounded capacity, EPIPE, end of file, the event loop, under any schedule | C87, C89, C90 |
| `SrcModel/Spec/Proofs`, `SrcTop`, `PropsSrc` | the same network fed by a python iterator: `OutputHandler` inside the shell's event loop, a blocking `os.write`, the ends of the items being reported to `wait()` | C88 |
| `MixModel/Spec/Proofs`, `MixTop`, `MixStuck`, `PropsMix` | networks of programs and python functions in any order: each function's `LineInputHandler`, generator and `LineOutputHandler` in the one event loop, spurious tasks, `poll(2)` thresholds, blocking writes | C91, C92 |
| `PsModel/Spec/Proofs`, `PropsPs` | `cmdline2pieshell` and python's reading of `a.b(-x, 'word', k=80)`; slugify is a parameter with a hypothesis about its fixed points | C93 |
| `HelpModel/Spec/Proofs`, `PropsHelp` | `Command.__signature__`: the regular expression over the help text, names and refusals; annotations are a parameter | C94 |
| `NestModel/Spec/Proofs`, `NestTop`, `PropsNest` | the network of a started pipeline whose commands have pipelines as arguments (`/dev/fd/N`), to any depth | C95 |
| `LeaveSpec/Proofs`, `LeaveTop`, `PropsLeave` | leaving a loop over a pipeline before its end (on the network of NetModel) | C96 |
| `RegModel/Spec/Proofs`, `PropsReg` | several running pipelines and iterations, the event loop's table of readers, reuse of descriptor numbers | C97 |
| `KindModel/Spec/Proofs`, `PropsKind` | generators, coroutines, lists, strings and other objects as functions in a pipeline; jsonutils.map | C98, C99 |
| `JobModel/Spec/Top/Proofs/Main`, `PropsJob` | running a pipeline of programs without reading it: files, the shell's own output, wait(); simulated by the network of NetModel | C100, C101 |
| `ErrModel/Spec/Proofs`, `PropsErr` | the text of a PipelineError and when the captured output is there | C102 |
| `SeqSpec`, `PropsSeq` | two jobs one after the other, through a file, against one job with a pipe (on top of `JobModel`) | C103 |
| `CdModel/Spec/Proofs`, `PropsCd` | completion of the cd command (on top of `EnvModel`, `CommandModel`); os.listdir is a parameter, constrained by `true_listing` | C104 |
| `PstreeModel/Spec/Proofs`, `PropsPstree` | the tree of processes and logins: keys, fallbacks, TreeGroup over children whose keys may raise (`ps.py:33-140`, `tree.py`) | C105 |
| `CtrlModel/Spec/Proofs`, `PropsCtrl` | CTRL-C and CTRL-Z as the main thread sees them: run_until_complete calls around the worlds of WorldModel, where python handles the SIGINT, the pending SIGTSTP | C106, C107, C109 |
| `MaskModel/Spec/Proofs`, `PropsMask` | blocked, ignored and handled signals through python's start, the signal managers, fork and exec (`manager_signalfd.py:16-20`, `manager_asyncio.py:11-15`, `command.py:175-233`) | C108 |
| `SubModel/Spec/Proofs/Top/Main`, `PropsSub` | subshells in pipelines: their child processes, descriptor tables, exit codes, in the network of NetModel (builtins.py:176-194) | C110 |
| `ManyModel/Spec/Proofs`, `PropsMany` | any number of pipelines of one shell running at the same time (base.py:143-153), all their processes, pipes and the shell's descriptor table | C111 |
| `SyncModel/Spec/Proofs/Top`, `PropsSync` | base.py:155-182, asyncutils.py:4-12, function.py:86-110 (where the using code runs: loop running or not), on top of NetModel | C112 |
| `EarlyModel/Proofs/Top`, `PropsEarly` | pipe.py:37-53, command.py:213-245, redir.py:194-226 (programs running while the pipeline is being started, ends still held), on top of NetModel; takes away NetModel's simplification that the programs make their first step once all are started | C113 |
| `EnvRedirModel/Spec/Proofs/Top/Same`, `PropsEnvRedir` | environ.py:42-59,103-130,139-160, redir.py:170-181,235-245, base.py:115-126,143-154 (default redirects of environments), on top of RunModel | C114 |
| `LogModel/Spec`, `PropsLog` | sessions of environment statements and jobs, on top of EnvRedirModel and JobModel (environ.py, base.py:143-168) | C115 |
| `BgModel/Spec`, `BgProofs`, `BgMain`, `PropsBg`, `BgEnvSpec`, `PropsBgEnv` | jobs of JobModel running at the same time on shared files (base.py:143-165, running.py:87-104); simulation of each job by one that runs alone | C116 |
| `StatusModel/Spec`, `StatusProofs`, `PropsStatus` | RunningProcess._repr and the " as PID" of a command (running.py:290-308, command.py:116-123), on top of WorldModel | C117 |
| `RShowModel/Spec`, `RShowProofs`, `PropsRShow`, `RShowCmd` | flags_to_string, Redirect.__repr__, Redirects.__repr__ (redir.py:45-48, 136-156, 246-248); reading the text back from the left | C118 |
| `FilterModel/Spec`, `PropsFilter` | filter of jsonutils.py:13-21, on top of KindModel | C119 |

In each group `XModel.v` follows the code, `XSpec.v` is the vocabulary of the statements and does not mention the model's helpers,
`XProofs.v` holds the lemmas, and `PropsX.v` only the property theorems, their Print Assumptions and an Example per theorem showing a
non-trivial case that meets the hypotheses.

Where the unchanged code violates a property, a theorem named `*_refuted` proves it (universally where possible, else by a witness)
and what does hold is proved as `*_partial` or under explicit hypotheses; the manifest status is then "partial".

## Method

* Value level code (C01 C02 C31-C45 C52-C57 C71): functions on lists and dicts, induction, refinement to a relational specification.
* Descriptor level code (C03-C12 C46 C60-C62 C65): state-and-exception functions over descriptor tables; loop invariants of the move and
  perform phases; for `_run` an induction over pipeline expressions against a wiring specification without descriptor numbers.
* Concurrent code (C13-C30 C47-C51): labelled transition systems whose labels are the scheduler's choices; invariants over all reachable
  states; termination and progress by measures.
* Files and processes (C45 C58 C63-C70): file contents as byte lists with open file descriptions; the child as a sequence of calls whose
  answers are universally quantified.

## Not modelled

* `to_dataframe`, `jedi_completion.py`, `monkeypatches/`, the ptpython/readline parts of `shell.py`, log output, psutil itself.
* The byte format and memo of pickle (C75 models what is reduced and rebuilt), help() texts, `_print_state` of threads other than the current one.
* The CPython interpreter: evaluation order and garbage collection (the closing of descriptors by finalizers in particular) are not
  modelled; where code depends on it the comment says so.
* The kernel's scheduling, signals to process groups and terminals appear only as labels of transition systems.


## Per property: what is modelled, how it is proved

Generated from properties.jsonl and MANIFEST.json. Model files are those imported by the named Props file.

* **C01** Redirect sets behave as a map where the last registration wins (proved; `PropsRedir.v`). Theorems: `C01_last_registration_wins`, `C01_refused_iff_removing_nothing`, `C01_merge_right_wins`, `C01_copy_is_identity`.
* **C02** The free descriptor chosen for moving or for an argument pipe is really free (proved; `PropsRedir.v`). Theorems: `C02_free_descriptor_is_free`, `C02_free_descriptor_is_least`.
* **C03** A child process ends up with exactly the redirected descriptors (proved; `PropsRedir.v`). Theorems: `C03_child_has_exactly_its_redirects`, `C03_no_error_means_exact`, `C03_program_sees_exactly`.
* **C04** Redirecting two descriptors to the same open descriptor (2>&1) (partial; `PropsPartial.v`, `PropsRedir.v`). Theorems: `C04_shared_source_refuted`, `C04_duplicated_source_partial`. The property is false of the code: for every redirect set with a shared source the second move fails; the theorem proves the failure. It holds when the source is duplicated first.
* **C05** A file redirect is performed whatever the state of the descriptor table (partial; `PropsRedir.v`). Theorems: `C05_file_at_lowest_refuted`, `C05_file_redirect_partial`. False in general (the opened file may land on its own target); proved when the target is open.
* **C06** Running a pipeline wires each process to its neighbours and to nothing else (proved; `PropsRun.v`). Theorems: `C06_wiring`, `C06_chain_started`, `C06_no_both_ends_started`, `C06_chain`, `C06_chain_clean`, `C06_no_both_ends`.
* **C07** Starting a pipeline leaks no pipe end in the shell (proved; `PropsRun.v`). Theorems: `C07_no_leak`.
* **C08** A redirect that overrides a pipe end does not leave that pipe end open (partial; `PropsPartial.v`, `PropsRun.v`). Theorems: `C08_override_leaks_refuted`, `C08_outer_ends_partial`. False of the code: for every a | (b < file) the unread pipe end stays open in the shell; the theorem proves the leak. It holds for redirects at the outer ends.
* **C09** A group's output is the output of both members (partial; `PropsPartial.v`, `PropsRun.v`). Theorems: `C09_group_output_lost_refuted`, `C09_unpiped_partial`. False of the code: for every (a + b) | c the members write to different pipes and only the second is read. It holds when the group is not piped.
* **C10** Redirecting to an existing descriptor leaves it open in the shell (partial; `PropsPartial.v`, `PropsRun.v`). Theorems: `C10_source_closed_refuted`, `C10_borrowed_partial`. False of the code: the descriptor given as source is closed in the shell. It holds for redirects marked borrowed.
* **C11** The exit code of a pipeline is that of its rightmost command (proved; `PropsRun.v`). Theorems: `C11_last_item_is_rightmost`.
* **C12** Every argument pipeline is visible to the command as its own readable /dev/fd file (proved; `PropsRun.v`). Theorems: `C12_arguments_started`, `C12_arguments_wired`, `C06_wiring`.
* **C13** Iterating over a pipeline yields exactly the lines of its output (proved; `PropsIter.v`, `PropsText.v`). Theorems: `C13_lines_delivered`, `C13_lines_well_defined`, `C13_text_delivered`.
* **C14** A consumer waiting for a line is always woken (proved; `PropsIter.v`). Theorems: `C14_consumer_served`, `C14_byte_consumer_served`.
* **C15** bytes(pipeline) is the exact output of the pipeline (proved; `PropsIter.v`). Theorems: `C15_bytes_delivered`.
* **C16** A python iterator is written item by item, in order, exactly once (proved; `PropsIter.v`). Theorems: `C16_items_written`, `C16_not_stuck`.
* **C17** Items sent from one python function to another arrive unchanged (proved; `PropsIter.v`, `PropsText.v`). Theorems: `C17_function_to_function`, `C17_small_output_never_blocks`, `C17_text_function_to_function`, `C17_unencodable_stops`.
* **C18** Text survives the UTF-8 encoding on the pipe (proved; `PropsText.v`). Theorems: `C18_encodable`, `C18_roundtrip`, `C18_no_stray_newline`, `C18_lines`.
* **C19** A handler never touches its descriptor after closing it (partial; `PropsIter.v`). Theorems: `C19_no_late_write_partial`, `C19_closed_once`, `C19_late_write_refuted`. True when no write fails; false otherwise: after a failed write a pending task writes to the closed descriptor number. The descriptor is always closed exactly once.
* **C20** Iteration that ends normally means every process succeeded (proved; `PropsEnd.v`, `PropsIter.v`, `PropsWorld.v`). Theorems: `C20_end_after_wait`, `C20_iteration_end_is_success`, `C26_success_is_true`.
* **C21** Child status words are decoded correctly (partial; `PropsWorld.v`). Theorems: `C21_decode_partial`, `C21_continued_refuted`. Right for every event except one: a continued child is reported as dumped with status 127.
* **C22** Every event of a child reaches that child's handler, in order, and no other process handler (proved; `PropsWorld.v`). Theorems: `C22_events_in_order`.
* **C23** No exit is lost however children race with the shell (proved; `PropsWorld.v`). Theorems: `C23_no_exit_lost`.
* **C24** A process that has terminated is not reported as running (partial; `PropsWorld.v`). Theorems: `C24_exit_noticed_partial`, `C24_killed_runs_forever_refuted`. True of processes that exit; false of every process killed by a signal.
* **C25** CTRL-Z reaches the foreground pipeline (partial; `PropsWorld.v`). Theorems: `C25_ctrl_z_partial`, `C25_asyncio_refuted`, `C25_other_wait_refuted`. True with the signalfd manager while no other wait() begins or ends; false with the asyncio manager and when another wait() ends.
* **C26** wait() reports success, failure or suspension truthfully (proved; `PropsWorld.v`). Theorems: `C26_success_is_true`, `C26_failure_is_true`, `C26_suspended_stopped_all`, `C26_suspended_was_asked`.
* **C27** A waiter is woken when the pipeline has finished (partial; `PropsWorld.v`). Theorems: `C27_waiter_returns_partial`, `C27_loop_comes_to_rest`, `C27_second_wait_refuted`, `C27_killed_refuted`, `C27_forgotten_refuted`. True for one wait() at a time on commands and functions ending in the ordinary way; false with two waiters, killed processes, a function raising last, undecodable output.
* **C28** End-of-pipeline clean-up happens exactly once and loses no captured output (proved; `PropsFinish.v`, `PropsWorld.v`). Theorems: `C28_cleaned_once`, `C28_output_recorded`, `C28_no_exception_iff`, `C28_failed_removes_nothing`, `C28_text_mode`. Exactly-once is for reachable worlds; carriage returns are dropped by text mode (C28_text_mode).
* **C29** running_pipelines lists exactly the pipelines still running (partial; `PropsWorld.v`). Theorems: `C29_listed_while_running_partial`, `C29_unlisted_when_ended_partial`, `C29_empty_listed_forever_refuted`, `C29_forgotten_listed_forever_refuted`. False for pipelines without running items and for forgotten ones.
* **C30** Signals are only sent to processes that have not been reaped (partial; `PropsWorld.v`). Theorems: `C30_own_processes_partial`, `C30_on_target_partial`, `C30_reaped_signalled_refuted`. False: every restart, suspend and wait also signals reaped pids.
* **C31** All ways of writing a command line are equivalent (proved; `PropsCommand.v`). Theorems: `C31_spelling_irrelevant`, `C31_denotes_words`, `C31_fails_iff`, `C31_reserved_names`. For attribute names that are not API names (listed in CommandSpec.reserved).
* **C32** The command line is built from the arguments in order (proved; `PropsCommand.v`). Theorems: `C32_concatenation`, `C32_raw_verbatim`.
* **C33** An argument never disappears by expansion (partial; `PropsExpand.v`). Theorems: `C33_ordinary_verbatim`, `C33_escaped_verbatim`, `C33_never_empty_partial`, `C33_percent_refuted`, `C33_missing_variable_raises`. An expansion that succeeds is never empty, but strings with a % that is no conversion or an unknown variable raise.
* **C34** Glob results name the same files for the child (partial; `PropsExpand.v`). Theorems: `C34_exact_partial`, `C34_words_exist`, `C34_matching`, `C34_odd_directory_refuted`, `C34_trailing_slash_refuted`. Exact in directories without pattern characters; in others the directory itself is taken as a pattern. Patterns beginning with ~ are covered by C36 only.
* **C35** The current directory of an environment is always an absolute normalised path (proved; `PropsEnv.v`). Theorems: `C35_always_normal`, `C35_unique`, `C35_sequence`, `C35_home`, `C35_command`, `C35_command_home`, `C35_missing`, `C35_existing`. Absolute normal form may begin with exactly two slashes, which POSIX and python keep apart.
* **C36** Relative paths are relative to the environment's directory (partial; `PropsEnv.v`). Theorems: `C36_relative_to_environment_partial`, `C36_unknown_user_refuted`. True for everything except ~name of an unknown user, which is taken relative to the process's directory.
* **C37** Derived environments are independent (partial; `PropsEnv.v`). Theorems: `C37_starts_as_copy`, `C37_given_directory`, `C37_others_invisible_partial`, `C37_variables_history_partial`, `C37_own_invisible_partial`, `C37_directory_gone_refuted`, `C37_emptied_refuted`. Holds as long as the derived environment keeps at least one variable; fails when its last variable is deleted, and deriving fails when the source's directory is gone. Redirects are shared by reference (not modelled here).
* **C38** An environment created with explicit variables passes exactly those to its children (partial; `PropsEnv.v`). Theorems: `C38_exact_partial`, `C38_exact_new_partial`, `C38_empty_refuted`. False for the empty dictionary, which stands for os.environ.
* **C39** Scope variables read back what was assigned (partial; `PropsScope.v`). Theorems: `C39_where`, `C39_others`, `C39_fails_iff`, `C39_read_back_iff`, `C39_last_assignment_partial`, `C39_refuted`, `C39_shadowed_forever`, `C39_underscore`. Where assignments go, that they change nothing else, and the exact condition for reading the value back hold for every state; the read-back property holds for all histories that never export a local name, and is refuted otherwise (the stale local shadows the variable). The name _ is stored elsewhere.
* **C40** Name lookup follows one fixed precedence (proved; `PropsScope.v`). Theorems: `C40_precedence`, `C40_never_unknown`. The current environment exists; __setstate__ is the one name that raises.
* **C41** Running a pipeline does not change the pipeline object (proved; `PropsCopy.v`). Theorems: `C41_same_structure`, `C41_shares_nothing`, `C41_positions_distinct`, `C41_originals_unchanged`, `C41_runs_each_position_once`, `C41_succeeds_iff`, `C41_cycle_fails`. Redirection objects, functions and iterators are shared with the original by design (an iterator is consumed by the first run).
* **C42** bashsource imports the variables bash printed (partial; `PropsBash.v`). Theorems: `C42_import`, `C42_which_values`, `C42_exact_partial`, `C42_changed_value_refuted`, `C42_unset_refuted`, `C42_last_variable_refuted`, `C42_declare_in_function_refuted`, `C42_quote_in_function_refuted`. Exact result for all variables and values. True for values without $, backquote and control characters if bash also prints a (plain) function; false for every other value, for unset variables, for the last variable if no function is printed, and with functions that begin with declare or have an odd quote.
* **C43** bashsource sources exactly the named file (partial; `PropsBash.v`). Theorems: `C43_files_partial`, `C43_iff`, `C43_quote_refuted`, `C43_injection_refuted`. True exactly for file names without a single quote; a file name with one can run arbitrary commands.
* **C44** Every process of a pipeline can be found under exactly one attribute path (partial; `PropsTree.v`). Theorems: `C44_terminates`, `C44_exactly_once`, `C44_unique_name_partial`, `C44_reserved_refuted`. Exactly-once and termination hold for all process lists (for any slugify that leaves decimal digits alone); direct access by name fails for names that are attributes of the pipeline object (wait, restart, ...) or contain capitals.
* **C45** Redirecting output to a file replaces the file's content (partial; `PropsFile.v`). Theorems: `C45_result`, `C45_replaced_partial`, `C45_refuted`, `C45_explicit_truncate`, `C45_explicit_append`. The file keeps the tail of a longer old content (the default flags have no O_TRUNC). Exact result proved for all contents and write sequences; explicit O_TRUNC / O_APPEND flags behave as expected.
* **C46** A builtin can be used in a pipe (partial; `PropsPartial.v`, `PropsRun.v`). Theorems: `C46_builtin_right_of_pipe_refuted`, `C46_builtin_left_of_pipe_refuted`, `C46_alone_partial`. False of the code: KeyError for every such pipe. It holds outside pipes.
* **C47** A large item yielded by a function is written completely (partial; `PropsIter.v`). Theorems: `C47_short_write_refuted`, `C16_items_written`. False of the code: the rest of a short write is dropped. Without short writes everything is written (C16_items_written).
* **C48** A pipe between two python functions never blocks the shell (partial; `PropsIter.v`). Theorems: `C48_functions_deadlock_refuted`, `C17_small_output_never_blocks`. False of the code in general; true while the output fits in the pipe.
* **C49** Suspending a resumed job returns control to the shell (partial; `PropsWorld.v`). Theorems: `C49_fg_suspend_hangs_refuted`. False of the code: the wait for the fg statement never ends.
* **C50** Iterating over a signal handler yields every event (partial; `PropsSig.v`). Theorems: `C50_in_order_partial`, `C50_second_event_raises_refuted`, `C50_async_for_refuted`. True when __anext__ is called directly; async for raises TypeError, and an unawaited event raises in the manager.
* **C51** remove_output_files() removes every temporary output file (partial; `PropsFinish.v`). Theorems: `C51_remove_own_files_partial`, `C51_shared_file_refuted`. False when two processes share a TMP file (a command and its argument pipelines do).
* **C52** A signal event reaches exactly the handlers whose filter it matches (partial; `PropsSig.v`). Theorems: `C52_same_key_iff_same_filter`, `C52_dispatch_exact_partial`, `C52_same_filter_refuted`, `C52_raising_handler_refuted`. True for handlers with distinct filters that do not raise.
* **C53** Only directories can become the current directory (partial; `PropsEnv.v`). Theorems: `C53_cd_to_file_refuted`, `C35_missing`. False of the code: a regular file is accepted (non-interactive) or remains as the directory after the exception (interactive). A path that does not exist is refused and changes nothing (C35_missing).
* **C54** Globbed file names are never taken for options (proved; `PropsExpand.v`). Theorems: `C54_never_an_option`, `C54_glob_absolute`.
* **C55** A variable's value is inserted as it is (partial; `PropsExpand.v`). Theorems: `C55_inserted_verbatim_partial`, `C55_expanded_again_refuted`. False when the value (with its surroundings) contains pattern characters or begins with ~: it is expanded again.
* **C56** Non-string arguments reach the program (partial; `PropsCommand.v`). Theorems: `C56_number_refuted`, `C56_named_partial`. False of the code for positional arguments; true for named ones.
* **C57** temporary_env restores the environment that was current (partial; `PropsScope.v`). Theorems: `C57_restores_partial`, `C57_refuted`. Holds when e0 is the current environment; otherwise e0 becomes current instead of the previous one.
* **C58** Output of a group redirected to a file reaches the file (partial; `PropsFile.v`). Theorems: `C58_group_length`, `C58_refuted`. False in every schedule: each process opens the file separately and writes from its beginning.
* **C59** bashsource keeps the functions bash printed (partial; `PropsBash.v`). Theorems: `C59_functions_partial`, `C59_cut_refuted`. Proved for functions whose quotes are balanced the way shlex reads them and which do not have declare and () as words. False in general: a line NAME () { inside a function, as in a here document, cuts it; see C42 for others.
* **C60** How a pipeline is bracketed does not matter (proved; `PropsAssoc.v`). Theorems: `C60_pipe_associative`, `C60_group_associative`. For clean pipelines (those C06 covers).
* **C61** Redirecting a pipeline redirects its ends (proved; `PropsAssoc.v`). Theorems: `C61_redirected_pipe`, `C61_redirected_group`. For clean pipelines (those C06 covers).
* **C62** Redirecting again replaces the earlier redirect (partial; `PropsAssoc.v`, `PropsPartial.v`). Theorems: `C62_later_redirect_ignored_refuted`, `C62_other_descriptor_partial`. False of the code: the redirect written first wins, the later file is not even opened. It holds for different descriptors.
* **C63** The user's program is run by one process only (partial; `PropsChild.v`). Theorems: `C63_goes_on_iff`, `C63_one_shell_partial`, `C63_closed_stderr_refuted`, `C63_subshell_refuted`. Exact characterisation. False when SIGINT arrives between fork and exec, when a failing command's standard error cannot be written, and for every subshell (its sys.exit is a SystemExit that leaves _run: handlers, finally blocks and an interactive prompt of the caller run in the child).
* **C64** A command that cannot be started is reported as failed (proved; `PropsChild.v`). Theorems: `C64_not_started_fails`, `C64_only_then`. If the child's standard error can be written and no SIGINT arrives (otherwise C63).
* **C65** A command is not run when one of its redirects fails (partial; `PropsChild.v`). Theorems: `C65_started_anyway_refuted`, `C65_missing_input_refuted`. False of the code: Redirects.perform logs and swallows the exception, the program runs with whatever descriptors it has by then.
* **C66** A command runs the first executable of its name in its environment's PATH (proved; `PropsChild.v`). Theorems: `C66_which_program`, `C66_found`.
* **C67** Assigning a variable never breaks unrelated commands (partial; `PropsChild.v`). Theorems: `C67_assignment_breaks_commands_refuted`, `C67_strings_partial`. False for values that are not strings assigned to the name of an exported variable of an environment with its own exports: execvpe raises for every command.
* **C68** A subshell fails iff its pipeline fails (partial; `PropsChild.v`). Theorems: `C68_status`, `C68_success_partial`, `C68_last_fails_partial`, `C68_success_reported_refuted`. False when an item other than the last fails, or the last is a function: the exit code is that of the last item, functions have 0.
* **C69** A redirect to a file is relative to the environment's directory (partial; `PropsChild.v`). Theorems: `C69_which_file`, `C69_relative_to_environment_partial`, `C69_refuted`. False: redirects are made before chdir, so relative names refer to the directory of the shell's process.
* **C70** A program gets exactly its environment's words, variables and directory (proved; `PropsChild.v`). Theorems: `C70_exact`.
* **C71** The printed form of a pipeline can be typed in again (partial; `PropsRepr.v`). Theorems: `C71_strings_read_back`, `C71_retyped_partial`, `C71_group_refuted`, `C71_arguments_refuted`, `C71_names_refuted`. Every string literal reads back, and so does every pipeline of commands without pipes inside groups, whose words expand to themselves and whose leading words are usable as names. False in general: pipes inside groups are printed without parentheses; R(...) and pipeline arguments are lost; words that are python keywords or method names cannot be typed in.
* **C72** repr() of a pipeline does not run it; displaying it runs it once (partial; `PropsRepr.v`). Theorems: `C72_repr_restores`, `C72_insert_refuted`, `C72_display_runs_partial`, `C72_display_list`. repr() restores its state, raises nothing, and runs nothing unless an argument inserts the output of a command (%(cmd)s), which it runs at each printing. Display at the prompt is characterised exactly for values without such arguments.
* **C73** A pipeline sent with remote arrives byte for byte (proved; `PropsShell.v`). Theorems: `C73_sent_bytes_arrive`, `C73_injective`. base64 and the words of a POSIX shell line (BashSpec.sh_read) are modelled; pickle itself is C75.
* **C74** Each command line option does what --help says (partial; `PropsShell.v`). Theorems: `C74_help_version`, `C74_actions`, `C74_log_refuted`, `C74_no_value`. True except for --log, which raises AttributeError for every value (log.py has no debug); --cmd and --pcmd without a value raise too.
* **C75** A pipeline sent to another pieshell is the same pipeline there (partial; `PropsPickle.v`). Theorems: `C75_same_pipeline`, `C75_when_partial`, `C75_raw_refuted`, `C75_history_refuted`, `C75_python311_refuted`. What arrives is the same pipeline, and when something arrives is characterised exactly. False in general: R(...) arguments, functions without a global name, and any earlier run with a STRING or TMP redirect (the default stderr) make loading fail; with python 3.11 or later nothing can be pickled. Pickle's memo (shared and cyclic objects) is simplified.
* **C76** A pipeline that cannot be started leaves nothing behind (partial; `PropsLaunch.v`). Theorems: `C76_started_is_reported`, `C76_single_partial`, `C76_single_descriptors_partial`, `C76_pipe_left_running`, `C76_pipe_refuted`, `C76_group_refuted`, `C76_descriptors_refuted`. On success exactly the reported items were started, for every pipeline; a single command with ordinary words starts nothing when it fails. False in general: in a pipe the left command keeps running when the right one cannot be started, and pipe ends are left open.
* **C77** |, < and > mean what they mean in a shell (partial; `PropsOper.v`). Theorems: `C77_pipes`, `C77_one_redirect_partial`, `C77_redirect_objects`, `C77_both_ends_refuted`, `C77_redirect_then_pipe_refuted`, `C77_pipe_then_in_refuted`, `C77_groups`, `C77_precedence`, `C77_operands`, `C77_bad_operand`. Pipes and a single redirect to a file do. False in general: cmd < 'in' > 'out' compares the two names, a redirect before a pipe goes to the wrong command, and < after a pipe goes to the first command.
* **C78** A command inserted in a word runs once each time the pipeline is run (partial; `PropsInsert.v`). Theorems: `C78_plain_partial`, `C78_inserted_refuted`, `C78_how_often`, `C78_nested`. Commands of the pipeline are started exactly once. Inserted commands are started 3 + k times (k operators around them), because the log lines print the pipeline and printing expands its words; nested insertions multiply.
* **C79** Completing a command name offers exactly the programs there are (partial; `PropsDir.v`). Theorems: `C79_fresh_partial`, `C79_cleared`, `C79_stale_refuted`, `C79_builtin_refuted`, `C79_missing_directory_refuted`, `C79_unique`. The first answer (and the one after env._clear_dir_cache()) is right if all directories of PATH can be read. False in general: the cache is never invalidated, the clear_dir_cache builtin does not clear it, and a PATH directory that does not exist raises once and leaves a truncated list for ever.
* **C80** Importing a .pysh module executes the file or raises (partial; `PropsScript.v`). Theorems: `C80_which_file`, `C80_not_found`, `C80_import_partial`, `C80_again`, `C80_failed_import_refuted`, `C80_not_python_refuted`, `C80_unreadable_refuted`, `C80_python312_refuted`. The right file is found and executed once. False in general: exceptions and syntax errors are printed and the import succeeds; an unreadable file raises only the first time; python 3.12 ignores the finder. Statements are modelled as state transformers that end normally, raise or exit.
* **C81** pieshell's exit status tells whether its script succeeded (partial; `PropsScript.v`). Theorems: `C81_success`, `C81_exit`, `C81_failed_script_refuted`, `C81_not_python_refuted`, `C81_cmd_refuted`, `C81_pcmd`. Successful scripts give 0, sys.exit(n) gives n, an unreadable file 1, --pcmd tells. False in general: a script or --cmd that raises gives 0 and later files are executed.
* **C82** %(name)s inserts what name denotes where the word is written (partial; `PropsWord.v`). Theorems: `C82_prompt_partial`, `C82_derived_refuted`, `C82_earlier_refuted`, `C82_module_refuted`, `C82_unknown_name`. True of bare commands at the prompt after startup, for every history of assignments, exports and deletions. False in general: derived environments, .pysh modules, pyshfunctions and --no-startup see environment variables only (the EnvScope constructor does not link the environment), and an environment that was env earlier sees the variables of the present one.
* **C83** Completing arguments executes nothing and completes the words typed (partial; `PropsComplete.v`). Theorems: `C83_words_partial`, `C83_executed_refuted`, `C83_expanded_refuted`, `C83_apostrophe_refuted`, `C83_empty_refuted`, `C83_percent_refuted`. True for words without special characters and for most words with blanks. False in general: words without blanks are not quoted and the line is eval'ed by bash, so a semicolon or $(...) in a word is executed by completing; empty words vanish; the line is expanded once more. Bash's reading of a line is BashSpec.sh_read.
* **C84** The directory shown in the prompt is the current directory (partial; `PropsPrompt.v`). Theorems: `C84_below_home`, `C84_elsewhere_partial`, `C84_refuted`, `C84_root_refuted`. True at and below the home directory and where the path does not begin with its characters. False in general: /home/u2 is shown as ~2 if the home directory is /home/u, and everything is shown wrongly if it is /.
* **C85** Showing the prompt does not change what fg and bg act on (partial; `PropsPrompt.v`). Theorems: `C85_last_pipeline_partial`, `C85_nested`, `C85_text`, `C85_refuted`. True once something has been run; before, the prompt stores a command object in last_pipeline. What the prompt runs is an arbitrary state transformer.
* **C86** The user's configuration is kept, and the default one is installed completely or not at all (partial; `PropsConf.v`). Theorems: `C86_existing_kept`, `C86_installed_partial`, `C86_alone_partial`, `C86_crash_refuted`, `C86_race_refuted`, `C86_overwritten_refuted`, `C86_errors`. An existing configuration is never changed, and without failures the complete default is installed by any number of pieshells. False in general: a crash leaves any initial part of it for ever, another pieshell starting at the same time executes such a part, and a file created between the test and the open is truncated.
* **C87** The output of a | b | ... is what the programs compute one after the other (proved; `PropsNet.v`). Theorems: `C87_bytes`, `C87_lines`, `C87_bytes_no_deadlock`, `C87_lines_no_deadlock`, `C87_bytes_finite`, `C87_lines_finite`, `C87_ended_no_process_left`. For chains of programs that terminate on their input; not being stuck and finiteness need programs that exit when a write fails with EPIPE (pieshell leaves SIGPIPE ignored in its children). Which process holds which pipe end is read off the descriptor tables the started processes and the shell really have; programs are arbitrary deterministic readers and writers of bytes.
* **C88** iterator | a | b gives what the programs compute from the items (partial; `PropsSrc.v`). Theorems: `C88_bytes`, `C88_lines`, `C88_through_cat`, `C88_finite`, `C88_ended_no_process_left`, `C88_fails`, `C88_succeeds`, `C88_no_deadlock_partial`, `C88_no_deadlock_refuted`, `C88_early_exit_no_deadlock_refuted`. The output is right under every schedule. Not being stuck is proved when the programs read all of their input and the items together fit into one pipe, and false otherwise: os.write on the pipe blocks the event loop, so [item] | cat with an item longer than two pipes comes to a standstill; and list(['a', 'b'] | head -1) may wait for ever, since nobody wakes the waiter when the function is the last item to end and has failed.
* **C89** yes | head ends (proved; `PropsNet.v`). Theorems: `C89_bytes`, `C89_lines`, `C89_bytes_no_deadlock`, `C89_lines_no_deadlock`, `C89_endless_fails`, `C89_never_ends`. A program that may go on for ever must write or exit again and again; 'provided' and the last clause of the property are theorems of their own.
* **C90** Iterating over a pipeline raises iff one of its programs failed (partial; `PropsNet.v`). Theorems: `C90_fails`, `C90_succeeds`, `C90_verdict_determined_refuted`. Raising when a program fails is proved for programs that exit with a failure when a write fails; not raising when all succeed is proved when they also read all of their input. Otherwise it depends on the schedule: with SIGPIPE ignored, echo | head -1 raises or not depending on who is faster.
* **C91** A pipeline of commands and python functions in any order gives what they compute one after the other (proved; `PropsMix.v`). Theorems: `C91_bytes`, `C91_lines`, `C91_map`, `C91_nobody_left`, `C91_no_deadlock`, `C91_verdict`, `C91_finite`. For items that terminate on their input. 'Short' is a third of the free space poll(2) requires to report a pipe writable (4096 bytes on Linux): up to three values may be written after one report, and a write that does not fit blocks the event loop (C88_no_deadlock_refuted). Functions are deterministic; the processes' pipe ends are read off the descriptor tables _run leaves behind.
* **C92** A python function may stop reading before the end of its input (partial; `PropsMix.v`). Theorems: `C92_early_end_refuted`, `C92_too_much_refuted`. False: when the generator of a function ends, only its output is closed, its input stays open for ever, so the program before it never gets EPIPE. Proved at any position in a pipeline, for every function and schedule: before an endless program the iteration never ends, nor if the program writes more than a pipe holds after the lines the function asks for.
* **C93** The printed form of a process can be typed in to run the same command (partial; `PropsPs.v`). Theorems: `C93_retyped_partial`, `C93_order_refuted`, `C93_number_refuted`, `C93_value_refuted`, `C93_truth_refuted`, `C93_repeated_refuted`, `C93_negative_refuted`, `C93_comma_refuted`, `C93_expanded_again`. Proved for names, short options whose letters form a name, other words (quoted) and --key=number options at the end. False in general: long options are moved to the end and repeated ones lost, values that are names become commands to be run, True and False vanish, numbers among the names cannot be read, negative numbers cannot be executed, and words are expanded again. Which strings slugify leaves unchanged is a hypothesis; names denote commands of the environment.
* **C94** The keyword arguments offered for a command are the long options its help lists (partial; `PropsHelp.v`). Theorems: `C94_exact_partial`, `C94_cut_refuted`, `C94_missed_refuted`, `C94_keyword_refuted`. Proved for options of two or more letters and dashes after a blank. False in general: --utf8 is offered as utf, which is no option; options of one letter or behind a comma or bracket are missed; and one option called like a python keyword makes the whole signature raise. The computation of the annotations (enum, typing) enters as a parameter that may fail.
* **C95** A command with pipelines as arguments computes what the programs compute from each other's output (partial; `PropsNest.v`). Theorems: `C95_bytes`, `C95_lines`, `C95_no_deadlock`, `C95_finite`, `C95_fails`, `C95_succeeds`, `C95_shared_input_refuted`. For programs that terminate on their input and exit with a failure when a write fails. Argument pipelines inherit the standard input of the command: proved if they do not read it or it is at its end; otherwise the property is false, the arguments race for the input (C95_shared_input_refuted). Files behind word arguments are not modelled.
* **C96** Leaving a loop over a pipeline early stops the pipeline (partial; `PropsLeave.v`). Theorems: `C96_too_much_refuted`, `C96_goes_on_refuted`, `C96_short`. False: nothing closes the descriptor of an iteration that is left, so the last process never gets EPIPE; if what is left of its output does not fit into the pipe and one read of 1024 bytes, it is there for ever, under every schedule. Proved: if the output fits into the pipe all processes come to their end. That python's garbage collector might collect the handler is not modelled: the event loop's selector refers to it as long as it is waiting.
* **C97** Each iteration over a running pipeline gets that pipeline's output and no other's (partial; `PropsReg.v`). Theorems: `C97_own_output`, `C97_all_of_it`, `C97_deaf_refuted`, `C97_stolen_refuted`. Proved for all histories in which no running pipeline is iterated over twice, which is so for list(cmd), str(cmd) and for-loops over pipelines, each of which runs the pipeline anew. False for a second iteration over one running pipeline: it replaces the first one's callback in the event loop, which then waits for ever, and if the first had ended and its descriptor number was given to another pipeline, it takes that pipeline's output.
* **C98** A python function in a pipeline outputs the values it produces, whatever kind of function it is (partial; `PropsKind.v`). Theorems: `C98_output_partial`, `C98_string_refuted`, `C98_bytes_refuted`, `C98_silent_refuted`. Proved for asynchronous generators, generators without a for loop over their input, lists of values and coroutines, coroutines, and objects that cannot be iterated over, also when they raise or yield what cannot be encoded, for inputs that are utf-8. False for a function returning a string (each character becomes a line; right only for one character) or bytes (each becomes its decimal number; never right), and for a generator that loops over its input with for, an object with __aiter__ only, or a pipeline: nothing is output. StopAsyncIteration raised inside a coroutine is not modelled.
* **C99** c | map(f) outputs f of each line (partial; `PropsKind.v`). Theorems: `C99_map_refuted`, `C99_async_map`. False for every function: map's generator loops with for over a handler that has __aiter__ only, so nothing is ever output. Proved for the same generator with async for. jsonutils.filter cannot be called at all (it refers to an undefined name).
* **C100** A pipeline redirected to a file leaves in it what its programs compute (partial; `PropsJob.v`). Theorems: `C100_file`, `C100_exact_partial`, `C100_refuted`, `C100_truncate`, `C100_append`. Proved: the file gets the output, in order, in front of what is left of the old content; exactly the output if the old content was not longer, and with O_TRUNC given explicitly always; after the old content with O_APPEND. False for the default flags whenever the old content is longer than the output: they lack O_TRUNC. Input and output are different files; the shell's own standard files are not files opened by pieshell.
* **C101** A pipeline run in the shell prints what its programs compute, and wait() ends with its verdict (proved; `PropsJob.v`). Theorems: `C101_shown`, `C101_no_deadlock`, `C101_finite`, `C101_waits`, `C101_fails`, `C101_succeeds`. The last five for any redirections of the ends from and to files. Programs are assumed to exit with a status other than 0 when a write fails (C101_no_deadlock, C101_finite, C101_fails); 'returns if none fails' needs that all read their whole input, as in C90.
* **C102** The text of a PipelineError tells which items failed and what they wrote to standard error (partial; `PropsErr.v`). Theorems: `C102_exact`, `C102_function_shown`, `C102_stderr_shown`, `C102_text_partial`, `C102_captured_partial`, `C102_fg_refuted`, `C102_early_refuted`. The exact text is proved for all items. False in two cases: str() raises TypeError if a failed fg statement is among the items (RunnningFg has no __repr__ taking display_output), and the captured output is missing if wait() is called after the last process is known to have ended but before its await_finish task has run; once the loop is at rest it is there. repr() of pipelines and tracebacks enter as parameters.
* **C103** Passing data through a file gives what a pipe gives (partial; `PropsSeq.v`). Theorems: `C103_one`, `C103_same`, `C103_when`, `C103_same_shown`, `C103_general`, `C103_refuted`. Proved with O_TRUNC, and with the default flags if the old content of the intermediate file was not longer than the output of the first job (C103_when is an equivalence). False otherwise: the old tail of the file is read by the second job (C103_refuted).
* **C104** Completing cd offers the directories one can go to (partial; `PropsCd.v`). Theorems: `C104_works_partial`, `C104_all_offered`, `C104_only_offered`, `C104_parent`, `C104_root`, `C104_here_partial`, `C104_interactive`, `C104_parent_here`, `C104_elsewhere_refuted`, `C104_parent_name_refuted`, `C104_reserved_refuted`, `C104_tilde_refuted`. True once a word has been given, for all ordinary names, and for PARENT and ROOT. False in general: without a word the directory of the process is listed, not that of the environment (they differ in environments that are not interactive), a directory called PARENT, ROOT, run, name, ... is offered and cannot be chosen, and without a word ~user leads to a home directory.
* **C105** The process tree shows every child process and every login once (partial; `PropsPstree.v`). Theorems: `C105_exactly_once`, `C105_dir`, `C105_dir_programs`, `C105_logins`, `C105_group`, `C105_gone_refuted`, `C105_zombie_refuted`, `C105_children_refuted`, `C105_pid_refuted`, `C105_kernel_refuted`, `C105_stale_login_refuted`, `C105_no_host_refuted`, `C105_same_process_refuted`. True if psutil answers (or denies access) for every child and hosts are known. False otherwise: one child that exits meanwhile, a zombie beside a child of the same program, a login whose process is gone, or one without host hides all the others (the exception is swallowed by __getattr__); a child called children is listed but not reachable, one called pid breaks GROUP and SESS, kernel threads are below an empty name, and of two logins of a user with one process the earlier is lost.
* **C106** CTRL-C cancels the pipeline in the foreground (partial; `PropsCtrl.v`). Theorems: `C106_in_wait_partial`, `C106_at_start_partial`, `C106_keyboard_refuted`, `C106_foreground_refuted`, `C106_left_behind_refuted`, `C106_killed_refuted`, `C106_wait_again_partial`. The property fails. Holds: the interrupt handled inside wait() raises PipelineInterrupted, and a later wait() returns when everything has exited (no fg, event loop at rest). Refuted: while nothing of the pipeline has ended the interrupt is always a bare KeyboardInterrupt (python is in the event loop, not in wait()), the wait() stays pending, its pipeline stays the one CTRL-Z stops, its later end disables CTRL-Z for the pipeline then in the foreground, and a pipeline whose process the SIGINT killed never ends. Callbacks are interrupted only before or after they run.
* **C107** CTRL-Z suspends the pipeline that was in the foreground when it was hit (partial; `PropsCtrl.v`). Theorems: `C107_same_call_partial`, `C107_stays_pending_refuted`, `C107_suspends_next_refuted`. The property fails. Holds (signalfd manager, no other wait() going on, no fg): hit and read during the same wait(). Refuted: hit at the prompt, or not read before the wait() ended, it stays pending and suspends the next interactive pipeline as soon as it is run.
* **C108** A program starts with the signal settings pieshell was started with (partial; `PropsMask.v`). Theorems: `C108_others_partial`, `C108_asyncio_partial`, `C108_pipe_refuted`, `C108_blocked_refuted`, `C108_unignored_refuted`. True of all signals but four. False: SIGPIPE and SIGXFSZ are ignored in every program (python ignores them, nothing restores them), with the signalfd manager SIGCHLD and SIGTSTP are blocked in every program, and with the asyncio manager they are at their default even if pieshell was started with them ignored. What CPython does to signals when it starts is modelled from its documentation; the semantics of fork and exec likewise.
* **C109** The prompt comes back when the foreground pipeline has been stopped (partial; `PropsCtrl.v`). Theorems: `C109_stopped_refuted`, `C107_same_call_partial`. False of the code: a stop is only recorded as the last event, wait() is not woken. It holds for a CTRL-Z that the signalfd manager reads during the wait() (C107_same_call_partial); with the asyncio manager CTRL-Z stops the programs and the shell waits on.
* **C110** A subshell in a pipeline computes what its pipeline computes in its place (partial; `PropsSub.v`). Theorems: `C110_bytes`, `C110_lines`, `C110_no_deadlock`, `C110_finite`, `C110_nobody_left`, `C110_fails`, `C110_succeeds`, `C110_other_failures_refuted`. Holds of what is computed, of the end and of failures of commands of the pipeline and of the last command of a subshell; false of failures of another command of a subshell: subshell(false | cat) succeeds (C110_other_failures_refuted; cf. C68). Modelled: subshells whose argument is a pipeline of plain commands, started before the first step of a program.
* **C111** Pipelines running at the same time do not affect each other (proved; `PropsMany.v`). Theorems: `C111_bytes_independent`, `C111_lines_independent`, `C111_bytes`, `C111_lines`, `C111_bytes_no_deadlock`, `C111_lines_no_deadlock`, `C111_bytes_finite`, `C111_lines_finite`, `C111_fails`, `C111_succeeds`. Every process, every pipe and the one descriptor table of the shell are in the model; that each pipeline only depends on its own steps is proved, not assumed. Modelled: pipelines of plain commands, all read as bytes or all as lines, a start happening in one step (the processes make their first step afterwards), no failing starts; standard input at its end (C111_input_is_shared shows that it must be).
* **C112** A pipeline can be used wherever Python code runs (partial; `PropsSync.v`). Theorems: `C112_refused_refuted`, `C112_left_behind_refuted`, `C112_plus_refuted`, `C112_elsewhere_partial`. False of the code: where the event loop runs the code, the synchronous uses raise RuntimeError after having started the processes (+ excepted); C112_left_behind_refuted says what stays. C112_elsewhere_partial: all other uses and places behave as C87 says.
* **C113** The programs of a pipeline may run while it is still being started (proved; `PropsEarly.v`). Theorems: `C113_bytes`, `C113_lines`, `C113_bytes_no_deadlock`, `C113_lines_no_deadlock`, `C113_bytes_finite`, `C113_lines_finite`, `C113_endless_bytes`, `C113_endless_lines`, `C113_endless_bytes_no_deadlock`, `C113_endless_lines_no_deadlock`, `C113_fails`, `C113_succeeds`. Holders are extra processes of the network of C87 that do nothing but give up their end at a time the scheduler chooses; any list of ends. A program not started yet is one the scheduler has not chosen yet. The end of the iteration is only reported once every holder has given up its end (in the code: once the start is over). C113_nonvacuous shows a schedule in which a write goes to a pipe that only a holder can read.
* **C114** What is run in an environment gets the environment's default redirects (partial; `PropsEnvRedir.v`). Theorems: `C114_history`, `C114_wiring`, `C114_chain`, `C114_like_redirecting`, `C114_own_wins`, `C114_chain_redirected`, `C114_others_keep`, `C114_own_redirects`, `C114_derived_refuted`, `C114_or_refuted`, `C114_descriptor_refuted`, `C114_left_environment`, `C114_mixed_refuted`. Proved: what an environment's redirects are after any session, and that any clean pipeline run in it is wired with them (environments made by Environment() and those derived from them; environments given a Redirects object are covered by C114_history only). False of the code: env | x and x | env raise NameError for every x (C114_or_refuted: `unicode`), a derived environment shares its redirects with the original (C114_derived_refuted), and a pipeline of parts of several environments uses the leftmost one's only (C114_left_environment, C114_mixed_refuted).  An open descriptor given as a default is closed by the first command (C114_descriptor_refuted). A Redirects object handed to two environments is not modelled.
* **C115** A log file set for an environment gets the output of everything run in it, in order (partial; `PropsLog.v`). Theorems: `C115_logs`, `C115_goes_on`, `C115_overwritten_refuted`. Proved for files opened with O_APPEND and pipelines of programs; each wait() can always come to its end. False with the default flags: the next pipeline overwrites the log from its beginning (C115_overwritten_refuted: no O_APPEND, no O_TRUNC). Uses C114 for the environments and the network of C100/C101 for the pipelines.
* **C116** Pipelines running at the same time can log to one file (partial; `PropsBg.v`, `PropsBgEnv.v`). Theorems: `C116_log`, `C116_others`, `C116_shown`, `C116_waits`, `C116_verdict`, `C116_no_deadlock`, `C116_finite`, `C116_environments`, `C116_plain_refuted`. Proved for logs opened with O_APPEND and input no job writes to; each job's share of the shell's standard input is given, not competed for. False with the default flags of cmd > "p" (C116_plain_refuted): the pipelines overwrite each other's output.
* **C117** The printed form of a running command tells what happened to its process (partial; `PropsStatus.v`). Theorems: `C117_shown_partial`, `C117_tells`, `C117_command`, `C117_continued_refuted`. Proved unless the last thing that happened to the process was that it was continued; then it is shown as having dumped core (C117_continued_refuted, from C21_continued_refuted).
* **C118** The printed form of redirects tells them apart (partial; `?`, `PropsRShow.v`). Theorems: `C118_told`, `C118_order`, `C118_flags`, `C118_usual`, `C118_listed`, `C118_command`, `C118_refuted`, `C118_with_refuted`. Proved for file names without blanks, commas and parentheses that are not numbers; C118_refuted shows that numbers, blanks and flags without a name of their own are ambiguous. C118_command: "COMMAND with REDIRECTS" tells both apart unless the other end of a pipe is shown (C118_with_refuted).
* **C119** c | filter(f) outputs the lines for which f holds (partial; `PropsFilter.v`). Theorems: `C119_refuted`, `C119_meant`, `C119_loop_refuted`, `C119_async_filter`. False of the code: filter(f) always raises NameError (C119_refuted), and with that repaired its for loop still outputs nothing (C119_loop_refuted). C119_meant shows that the generator inside describes the right lines, C119_async_filter that an asynchronous version outputs them, for every schedule.
