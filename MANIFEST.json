{
 "claims": [
  {
   "property": "C01",
   "status": "proved",
   "theorems": [
    "C01_last_registration_wins",
    "C01_refused_iff_removing_nothing",
    "C01_merge_right_wins",
    "C01_copy_is_identity"
   ],
   "note": ""
  },
  {
   "property": "C02",
   "status": "proved",
   "theorems": [
    "C02_free_descriptor_is_free",
    "C02_free_descriptor_is_least"
   ],
   "note": ""
  },
  {
   "property": "C03",
   "status": "proved",
   "theorems": [
    "C03_child_has_exactly_its_redirects",
    "C03_no_error_means_exact",
    "C03_program_sees_exactly"
   ],
   "note": ""
  },
  {
   "property": "C04",
   "status": "partial",
   "theorems": [
    "C04_shared_source_refuted",
    "C04_duplicated_source_partial"
   ],
   "note": "The property is false of the code: for every redirect set with a shared source the second move fails; the theorem proves the failure. It holds when the source is duplicated first."
  },
  {
   "property": "C05",
   "status": "partial",
   "theorems": [
    "C05_file_at_lowest_refuted",
    "C05_file_redirect_partial"
   ],
   "note": "False in general (the opened file may land on its own target); proved when the target is open."
  },
  {
   "property": "C06",
   "status": "proved",
   "theorems": [
    "C06_wiring",
    "C06_chain_started",
    "C06_no_both_ends_started",
    "C06_chain",
    "C06_chain_clean",
    "C06_no_both_ends"
   ],
   "note": ""
  },
  {
   "property": "C07",
   "status": "proved",
   "theorems": [
    "C07_no_leak"
   ],
   "note": ""
  },
  {
   "property": "C08",
   "status": "partial",
   "theorems": [
    "C08_override_leaks_refuted",
    "C08_outer_ends_partial"
   ],
   "note": "False of the code: for every a | (b < file) the unread pipe end stays open in the shell; the theorem proves the leak. It holds for redirects at the outer ends."
  },
  {
   "property": "C09",
   "status": "partial",
   "theorems": [
    "C09_group_output_lost_refuted",
    "C09_unpiped_partial"
   ],
   "note": "False of the code: for every (a + b) | c the members write to different pipes and only the second is read. It holds when the group is not piped."
  },
  {
   "property": "C10",
   "status": "partial",
   "theorems": [
    "C10_source_closed_refuted",
    "C10_borrowed_partial"
   ],
   "note": "False of the code: the descriptor given as source is closed in the shell. It holds for redirects marked borrowed."
  },
  {
   "property": "C100",
   "status": "partial",
   "theorems": [
    "C100_file",
    "C100_exact_partial",
    "C100_refuted",
    "C100_truncate",
    "C100_append"
   ],
   "note": "Proved: the file gets the output, in order, in front of what is left of the old content; exactly the output if the old content was not longer, and with O_TRUNC given explicitly always; after the old content with O_APPEND. False for the default flags whenever the old content is longer than the output: they lack O_TRUNC. Input and output are different files; the shell's own standard files are not files opened by pieshell."
  },
  {
   "property": "C101",
   "status": "proved",
   "theorems": [
    "C101_shown",
    "C101_no_deadlock",
    "C101_finite",
    "C101_waits",
    "C101_fails",
    "C101_succeeds"
   ],
   "note": "The last five for any redirections of the ends from and to files. Programs are assumed to exit with a status other than 0 when a write fails (C101_no_deadlock, C101_finite, C101_fails); 'returns if none fails' needs that all read their whole input, as in C90."
  },
  {
   "property": "C102",
   "status": "partial",
   "theorems": [
    "C102_exact",
    "C102_function_shown",
    "C102_stderr_shown",
    "C102_text_partial",
    "C102_captured_partial",
    "C102_fg_refuted",
    "C102_early_refuted"
   ],
   "note": "The exact text is proved for all items. False in two cases: str() raises TypeError if a failed fg statement is among the items (RunnningFg has no __repr__ taking display_output), and the captured output is missing if wait() is called after the last process is known to have ended but before its await_finish task has run; once the loop is at rest it is there. repr() of pipelines and tracebacks enter as parameters."
  },
  {
   "property": "C103",
   "status": "partial",
   "theorems": [
    "C103_one",
    "C103_same",
    "C103_when",
    "C103_same_shown",
    "C103_general",
    "C103_refuted"
   ],
   "note": "Proved with O_TRUNC, and with the default flags if the old content of the intermediate file was not longer than the output of the first job (C103_when is an equivalence). False otherwise: the old tail of the file is read by the second job (C103_refuted)."
  },
  {
   "property": "C104",
   "status": "partial",
   "theorems": [
    "C104_works_partial",
    "C104_all_offered",
    "C104_only_offered",
    "C104_parent",
    "C104_root",
    "C104_here_partial",
    "C104_interactive",
    "C104_parent_here",
    "C104_elsewhere_refuted",
    "C104_parent_name_refuted",
    "C104_reserved_refuted",
    "C104_tilde_refuted"
   ],
   "note": "True once a word has been given, for all ordinary names, and for PARENT and ROOT. False in general: without a word the directory of the process is listed, not that of the environment (they differ in environments that are not interactive), a directory called PARENT, ROOT, run, name, ... is offered and cannot be chosen, and without a word ~user leads to a home directory."
  },
  {
   "property": "C105",
   "status": "partial",
   "theorems": [
    "C105_exactly_once",
    "C105_dir",
    "C105_dir_programs",
    "C105_logins",
    "C105_group",
    "C105_gone_refuted",
    "C105_zombie_refuted",
    "C105_children_refuted",
    "C105_pid_refuted",
    "C105_kernel_refuted",
    "C105_stale_login_refuted",
    "C105_no_host_refuted",
    "C105_same_process_refuted"
   ],
   "note": "True if psutil answers (or denies access) for every child and hosts are known. False otherwise: one child that exits meanwhile, a zombie beside a child of the same program, a login whose process is gone, or one without host hides all the others (the exception is swallowed by __getattr__); a child called children is listed but not reachable, one called pid breaks GROUP and SESS, kernel threads are below an empty name, and of two logins of a user with one process the earlier is lost."
  },
  {
   "property": "C106",
   "status": "partial",
   "theorems": [
    "C106_in_wait_partial",
    "C106_at_start_partial",
    "C106_keyboard_refuted",
    "C106_foreground_refuted",
    "C106_left_behind_refuted",
    "C106_killed_refuted",
    "C106_wait_again_partial"
   ],
   "note": "The property fails. Holds: the interrupt handled inside wait() raises PipelineInterrupted, and a later wait() returns when everything has exited (no fg, event loop at rest). Refuted: while nothing of the pipeline has ended the interrupt is always a bare KeyboardInterrupt (python is in the event loop, not in wait()), the wait() stays pending, its pipeline stays the one CTRL-Z stops, its later end disables CTRL-Z for the pipeline then in the foreground, and a pipeline whose process the SIGINT killed never ends. Callbacks are interrupted only before or after they run."
  },
  {
   "property": "C107",
   "status": "partial",
   "theorems": [
    "C107_same_call_partial",
    "C107_stays_pending_refuted",
    "C107_suspends_next_refuted"
   ],
   "note": "The property fails. Holds (signalfd manager, no other wait() going on, no fg): hit and read during the same wait(). Refuted: hit at the prompt, or not read before the wait() ended, it stays pending and suspends the next interactive pipeline as soon as it is run."
  },
  {
   "property": "C108",
   "status": "partial",
   "theorems": [
    "C108_others_partial",
    "C108_asyncio_partial",
    "C108_pipe_refuted",
    "C108_blocked_refuted",
    "C108_unignored_refuted"
   ],
   "note": "True of all signals but four. False: SIGPIPE and SIGXFSZ are ignored in every program (python ignores them, nothing restores them), with the signalfd manager SIGCHLD and SIGTSTP are blocked in every program, and with the asyncio manager they are at their default even if pieshell was started with them ignored. What CPython does to signals when it starts is modelled from its documentation; the semantics of fork and exec likewise."
  },
  {
   "property": "C109",
   "status": "partial",
   "theorems": [
    "C109_stopped_refuted",
    "C107_same_call_partial"
   ],
   "note": "False of the code: a stop is only recorded as the last event, wait() is not woken. It holds for a CTRL-Z that the signalfd manager reads during the wait() (C107_same_call_partial); with the asyncio manager CTRL-Z stops the programs and the shell waits on."
  },
  {
   "property": "C11",
   "status": "proved",
   "theorems": [
    "C11_last_item_is_rightmost"
   ],
   "note": ""
  },
  {
   "property": "C110",
   "status": "partial",
   "theorems": [
    "C110_bytes",
    "C110_lines",
    "C110_no_deadlock",
    "C110_finite",
    "C110_nobody_left",
    "C110_fails",
    "C110_succeeds",
    "C110_other_failures_refuted"
   ],
   "note": "Holds of what is computed, of the end and of failures of commands of the pipeline and of the last command of a subshell; false of failures of another command of a subshell: subshell(false | cat) succeeds (C110_other_failures_refuted; cf. C68). Modelled: subshells whose argument is a pipeline of plain commands, started before the first step of a program."
  },
  {
   "property": "C111",
   "status": "proved",
   "theorems": [
    "C111_bytes_independent",
    "C111_lines_independent",
    "C111_bytes",
    "C111_lines",
    "C111_bytes_no_deadlock",
    "C111_lines_no_deadlock",
    "C111_bytes_finite",
    "C111_lines_finite",
    "C111_fails",
    "C111_succeeds"
   ],
   "note": "Every process, every pipe and the one descriptor table of the shell are in the model; that each pipeline only depends on its own steps is proved, not assumed. Modelled: pipelines of plain commands, all read as bytes or all as lines, a start happening in one step (the processes make their first step afterwards), no failing starts; standard input at its end (C111_input_is_shared shows that it must be)."
  },
  {
   "property": "C112",
   "status": "partial",
   "theorems": [
    "C112_refused_refuted",
    "C112_left_behind_refuted",
    "C112_plus_refuted",
    "C112_elsewhere_partial"
   ],
   "note": "False of the code: where the event loop runs the code, the synchronous uses raise RuntimeError after having started the processes (+ excepted); C112_left_behind_refuted says what stays. C112_elsewhere_partial: all other uses and places behave as C87 says."
  },
  {
   "property": "C113",
   "status": "proved",
   "theorems": [
    "C113_bytes",
    "C113_lines",
    "C113_bytes_no_deadlock",
    "C113_lines_no_deadlock",
    "C113_bytes_finite",
    "C113_lines_finite",
    "C113_endless_bytes",
    "C113_endless_lines",
    "C113_endless_bytes_no_deadlock",
    "C113_endless_lines_no_deadlock",
    "C113_fails",
    "C113_succeeds"
   ],
   "note": "Holders are extra processes of the network of C87 that do nothing but give up their end at a time the scheduler chooses; any list of ends. A program not started yet is one the scheduler has not chosen yet. The end of the iteration is only reported once every holder has given up its end (in the code: once the start is over). C113_nonvacuous shows a schedule in which a write goes to a pipe that only a holder can read."
  },
  {
   "property": "C114",
   "status": "partial",
   "theorems": [
    "C114_history",
    "C114_wiring",
    "C114_chain",
    "C114_like_redirecting",
    "C114_own_wins",
    "C114_chain_redirected",
    "C114_others_keep",
    "C114_own_redirects",
    "C114_derived_refuted",
    "C114_or_refuted",
    "C114_descriptor_refuted",
    "C114_left_environment",
    "C114_mixed_refuted"
   ],
   "note": "Proved: what an environment's redirects are after any session, and that any clean pipeline run in it is wired with them (environments made by Environment() and those derived from them; environments given a Redirects object are covered by C114_history only). False of the code: env | x and x | env raise NameError for every x (C114_or_refuted: `unicode`), a derived environment shares its redirects with the original (C114_derived_refuted), and a pipeline of parts of several environments uses the leftmost one's only (C114_left_environment, C114_mixed_refuted).  An open descriptor given as a default is closed by the first command (C114_descriptor_refuted). A Redirects object handed to two environments is not modelled."
  },
  {
   "property": "C115",
   "status": "partial",
   "theorems": [
    "C115_logs",
    "C115_goes_on",
    "C115_overwritten_refuted"
   ],
   "note": "Proved for files opened with O_APPEND and pipelines of programs; each wait() can always come to its end. False with the default flags: the next pipeline overwrites the log from its beginning (C115_overwritten_refuted: no O_APPEND, no O_TRUNC). Uses C114 for the environments and the network of C100/C101 for the pipelines."
  },
  {
   "property": "C116",
   "status": "partial",
   "theorems": [
    "C116_log",
    "C116_others",
    "C116_shown",
    "C116_waits",
    "C116_verdict",
    "C116_no_deadlock",
    "C116_finite",
    "C116_environments",
    "C116_plain_refuted"
   ],
   "note": "Proved for logs opened with O_APPEND and input no job writes to; each job's share of the shell's standard input is given, not competed for. False with the default flags of cmd > \"p\" (C116_plain_refuted): the pipelines overwrite each other's output."
  },
  {
   "property": "C117",
   "status": "partial",
   "theorems": [
    "C117_shown_partial",
    "C117_tells",
    "C117_command",
    "C117_continued_refuted"
   ],
   "note": "Proved unless the last thing that happened to the process was that it was continued; then it is shown as having dumped core (C117_continued_refuted, from C21_continued_refuted)."
  },
  {
   "property": "C118",
   "status": "partial",
   "theorems": [
    "C118_told",
    "C118_order",
    "C118_flags",
    "C118_usual",
    "C118_listed",
    "C118_command",
    "C118_refuted",
    "C118_with_refuted"
   ],
   "note": "Proved for file names without blanks, commas and parentheses that are not numbers; C118_refuted shows that numbers, blanks and flags without a name of their own are ambiguous. C118_command: \"COMMAND with REDIRECTS\" tells both apart unless the other end of a pipe is shown (C118_with_refuted)."
  },
  {
   "property": "C119",
   "status": "partial",
   "theorems": [
    "C119_refuted",
    "C119_meant",
    "C119_loop_refuted",
    "C119_async_filter"
   ],
   "note": "False of the code: filter(f) always raises NameError (C119_refuted), and with that repaired its for loop still outputs nothing (C119_loop_refuted). C119_meant shows that the generator inside describes the right lines, C119_async_filter that an asynchronous version outputs them, for every schedule."
  },
  {
   "property": "C12",
   "status": "proved",
   "theorems": [
    "C12_arguments_started",
    "C12_arguments_wired",
    "C06_wiring"
   ],
   "note": ""
  },
  {
   "property": "C13",
   "status": "proved",
   "theorems": [
    "C13_lines_delivered",
    "C13_lines_well_defined",
    "C13_text_delivered"
   ],
   "note": ""
  },
  {
   "property": "C14",
   "status": "proved",
   "theorems": [
    "C14_consumer_served",
    "C14_byte_consumer_served"
   ],
   "note": ""
  },
  {
   "property": "C15",
   "status": "proved",
   "theorems": [
    "C15_bytes_delivered"
   ],
   "note": ""
  },
  {
   "property": "C16",
   "status": "proved",
   "theorems": [
    "C16_items_written",
    "C16_not_stuck"
   ],
   "note": ""
  },
  {
   "property": "C17",
   "status": "proved",
   "theorems": [
    "C17_function_to_function",
    "C17_small_output_never_blocks",
    "C17_text_function_to_function",
    "C17_unencodable_stops"
   ],
   "note": ""
  },
  {
   "property": "C18",
   "status": "proved",
   "theorems": [
    "C18_encodable",
    "C18_roundtrip",
    "C18_no_stray_newline",
    "C18_lines"
   ],
   "note": ""
  },
  {
   "property": "C19",
   "status": "partial",
   "theorems": [
    "C19_no_late_write_partial",
    "C19_closed_once",
    "C19_late_write_refuted"
   ],
   "note": "True when no write fails; false otherwise: after a failed write a pending task writes to the closed descriptor number. The descriptor is always closed exactly once."
  },
  {
   "property": "C20",
   "status": "proved",
   "theorems": [
    "C20_end_after_wait",
    "C20_iteration_end_is_success",
    "C26_success_is_true"
   ],
   "note": ""
  },
  {
   "property": "C21",
   "status": "partial",
   "theorems": [
    "C21_decode_partial",
    "C21_continued_refuted"
   ],
   "note": "Right for every event except one: a continued child is reported as dumped with status 127."
  },
  {
   "property": "C22",
   "status": "proved",
   "theorems": [
    "C22_events_in_order"
   ],
   "note": ""
  },
  {
   "property": "C23",
   "status": "proved",
   "theorems": [
    "C23_no_exit_lost"
   ],
   "note": ""
  },
  {
   "property": "C24",
   "status": "partial",
   "theorems": [
    "C24_exit_noticed_partial",
    "C24_killed_runs_forever_refuted"
   ],
   "note": "True of processes that exit; false of every process killed by a signal."
  },
  {
   "property": "C25",
   "status": "partial",
   "theorems": [
    "C25_ctrl_z_partial",
    "C25_asyncio_refuted",
    "C25_other_wait_refuted"
   ],
   "note": "True with the signalfd manager while no other wait() begins or ends; false with the asyncio manager and when another wait() ends."
  },
  {
   "property": "C26",
   "status": "proved",
   "theorems": [
    "C26_success_is_true",
    "C26_failure_is_true",
    "C26_suspended_stopped_all",
    "C26_suspended_was_asked"
   ],
   "note": ""
  },
  {
   "property": "C27",
   "status": "partial",
   "theorems": [
    "C27_waiter_returns_partial",
    "C27_loop_comes_to_rest",
    "C27_second_wait_refuted",
    "C27_killed_refuted",
    "C27_forgotten_refuted"
   ],
   "note": "True for one wait() at a time on commands and functions ending in the ordinary way; false with two waiters, killed processes, a function raising last, undecodable output."
  },
  {
   "property": "C28",
   "status": "proved",
   "theorems": [
    "C28_cleaned_once",
    "C28_output_recorded",
    "C28_no_exception_iff",
    "C28_failed_removes_nothing",
    "C28_text_mode"
   ],
   "note": "Exactly-once is for reachable worlds; carriage returns are dropped by text mode (C28_text_mode)."
  },
  {
   "property": "C29",
   "status": "partial",
   "theorems": [
    "C29_listed_while_running_partial",
    "C29_unlisted_when_ended_partial",
    "C29_empty_listed_forever_refuted",
    "C29_forgotten_listed_forever_refuted"
   ],
   "note": "False for pipelines without running items and for forgotten ones."
  },
  {
   "property": "C30",
   "status": "partial",
   "theorems": [
    "C30_own_processes_partial",
    "C30_on_target_partial",
    "C30_reaped_signalled_refuted"
   ],
   "note": "False: every restart, suspend and wait also signals reaped pids."
  },
  {
   "property": "C31",
   "status": "proved",
   "theorems": [
    "C31_spelling_irrelevant",
    "C31_denotes_words",
    "C31_fails_iff",
    "C31_reserved_names"
   ],
   "note": "For attribute names that are not API names (listed in CommandSpec.reserved)."
  },
  {
   "property": "C32",
   "status": "proved",
   "theorems": [
    "C32_concatenation",
    "C32_raw_verbatim"
   ],
   "note": ""
  },
  {
   "property": "C33",
   "status": "partial",
   "theorems": [
    "C33_ordinary_verbatim",
    "C33_escaped_verbatim",
    "C33_never_empty_partial",
    "C33_percent_refuted",
    "C33_missing_variable_raises"
   ],
   "note": "An expansion that succeeds is never empty, but strings with a % that is no conversion or an unknown variable raise."
  },
  {
   "property": "C34",
   "status": "partial",
   "theorems": [
    "C34_exact_partial",
    "C34_words_exist",
    "C34_matching",
    "C34_odd_directory_refuted",
    "C34_trailing_slash_refuted"
   ],
   "note": "Exact in directories without pattern characters; in others the directory itself is taken as a pattern. Patterns beginning with ~ are covered by C36 only."
  },
  {
   "property": "C35",
   "status": "proved",
   "theorems": [
    "C35_always_normal",
    "C35_unique",
    "C35_sequence",
    "C35_home",
    "C35_command",
    "C35_command_home",
    "C35_missing",
    "C35_existing"
   ],
   "note": "Absolute normal form may begin with exactly two slashes, which POSIX and python keep apart."
  },
  {
   "property": "C36",
   "status": "partial",
   "theorems": [
    "C36_relative_to_environment_partial",
    "C36_unknown_user_refuted"
   ],
   "note": "True for everything except ~name of an unknown user, which is taken relative to the process's directory."
  },
  {
   "property": "C37",
   "status": "partial",
   "theorems": [
    "C37_starts_as_copy",
    "C37_given_directory",
    "C37_others_invisible_partial",
    "C37_variables_history_partial",
    "C37_own_invisible_partial",
    "C37_directory_gone_refuted",
    "C37_emptied_refuted"
   ],
   "note": "Holds as long as the derived environment keeps at least one variable; fails when its last variable is deleted, and deriving fails when the source's directory is gone. Redirects are shared by reference (not modelled here)."
  },
  {
   "property": "C38",
   "status": "partial",
   "theorems": [
    "C38_exact_partial",
    "C38_exact_new_partial",
    "C38_empty_refuted"
   ],
   "note": "False for the empty dictionary, which stands for os.environ."
  },
  {
   "property": "C39",
   "status": "partial",
   "theorems": [
    "C39_where",
    "C39_others",
    "C39_fails_iff",
    "C39_read_back_iff",
    "C39_last_assignment_partial",
    "C39_refuted",
    "C39_shadowed_forever",
    "C39_underscore"
   ],
   "note": "Where assignments go, that they change nothing else, and the exact condition for reading the value back hold for every state; the read-back property holds for all histories that never export a local name, and is refuted otherwise (the stale local shadows the variable). The name _ is stored elsewhere."
  },
  {
   "property": "C40",
   "status": "proved",
   "theorems": [
    "C40_precedence",
    "C40_never_unknown"
   ],
   "note": "The current environment exists; __setstate__ is the one name that raises."
  },
  {
   "property": "C41",
   "status": "proved",
   "theorems": [
    "C41_same_structure",
    "C41_shares_nothing",
    "C41_positions_distinct",
    "C41_originals_unchanged",
    "C41_runs_each_position_once",
    "C41_succeeds_iff",
    "C41_cycle_fails"
   ],
   "note": "Redirection objects, functions and iterators are shared with the original by design (an iterator is consumed by the first run)."
  },
  {
   "property": "C42",
   "status": "partial",
   "theorems": [
    "C42_import",
    "C42_which_values",
    "C42_exact_partial",
    "C42_changed_value_refuted",
    "C42_unset_refuted",
    "C42_last_variable_refuted",
    "C42_declare_in_function_refuted",
    "C42_quote_in_function_refuted"
   ],
   "note": "Exact result for all variables and values. True for values without $, backquote and control characters if bash also prints a (plain) function; false for every other value, for unset variables, for the last variable if no function is printed, and with functions that begin with declare or have an odd quote."
  },
  {
   "property": "C43",
   "status": "partial",
   "theorems": [
    "C43_files_partial",
    "C43_iff",
    "C43_quote_refuted",
    "C43_injection_refuted"
   ],
   "note": "True exactly for file names without a single quote; a file name with one can run arbitrary commands."
  },
  {
   "property": "C44",
   "status": "partial",
   "theorems": [
    "C44_terminates",
    "C44_exactly_once",
    "C44_unique_name_partial",
    "C44_reserved_refuted"
   ],
   "note": "Exactly-once and termination hold for all process lists (for any slugify that leaves decimal digits alone); direct access by name fails for names that are attributes of the pipeline object (wait, restart, ...) or contain capitals."
  },
  {
   "property": "C45",
   "status": "partial",
   "theorems": [
    "C45_result",
    "C45_replaced_partial",
    "C45_refuted",
    "C45_explicit_truncate",
    "C45_explicit_append"
   ],
   "note": "The file keeps the tail of a longer old content (the default flags have no O_TRUNC). Exact result proved for all contents and write sequences; explicit O_TRUNC / O_APPEND flags behave as expected."
  },
  {
   "property": "C46",
   "status": "partial",
   "theorems": [
    "C46_builtin_right_of_pipe_refuted",
    "C46_builtin_left_of_pipe_refuted",
    "C46_alone_partial"
   ],
   "note": "False of the code: KeyError for every such pipe. It holds outside pipes."
  },
  {
   "property": "C47",
   "status": "partial",
   "theorems": [
    "C47_short_write_refuted",
    "C16_items_written"
   ],
   "note": "False of the code: the rest of a short write is dropped. Without short writes everything is written (C16_items_written)."
  },
  {
   "property": "C48",
   "status": "partial",
   "theorems": [
    "C48_functions_deadlock_refuted",
    "C17_small_output_never_blocks"
   ],
   "note": "False of the code in general; true while the output fits in the pipe."
  },
  {
   "property": "C49",
   "status": "partial",
   "theorems": [
    "C49_fg_suspend_hangs_refuted"
   ],
   "note": "False of the code: the wait for the fg statement never ends."
  },
  {
   "property": "C50",
   "status": "partial",
   "theorems": [
    "C50_in_order_partial",
    "C50_second_event_raises_refuted",
    "C50_async_for_refuted"
   ],
   "note": "True when __anext__ is called directly; async for raises TypeError, and an unawaited event raises in the manager."
  },
  {
   "property": "C51",
   "status": "partial",
   "theorems": [
    "C51_remove_own_files_partial",
    "C51_shared_file_refuted"
   ],
   "note": "False when two processes share a TMP file (a command and its argument pipelines do)."
  },
  {
   "property": "C52",
   "status": "partial",
   "theorems": [
    "C52_same_key_iff_same_filter",
    "C52_dispatch_exact_partial",
    "C52_same_filter_refuted",
    "C52_raising_handler_refuted"
   ],
   "note": "True for handlers with distinct filters that do not raise."
  },
  {
   "property": "C53",
   "status": "partial",
   "theorems": [
    "C53_cd_to_file_refuted",
    "C35_missing"
   ],
   "note": "False of the code: a regular file is accepted (non-interactive) or remains as the directory after the exception (interactive). A path that does not exist is refused and changes nothing (C35_missing)."
  },
  {
   "property": "C54",
   "status": "proved",
   "theorems": [
    "C54_never_an_option",
    "C54_glob_absolute"
   ],
   "note": ""
  },
  {
   "property": "C55",
   "status": "partial",
   "theorems": [
    "C55_inserted_verbatim_partial",
    "C55_expanded_again_refuted"
   ],
   "note": "False when the value (with its surroundings) contains pattern characters or begins with ~: it is expanded again."
  },
  {
   "property": "C56",
   "status": "partial",
   "theorems": [
    "C56_number_refuted",
    "C56_named_partial"
   ],
   "note": "False of the code for positional arguments; true for named ones."
  },
  {
   "property": "C57",
   "status": "partial",
   "theorems": [
    "C57_restores_partial",
    "C57_refuted"
   ],
   "note": "Holds when e0 is the current environment; otherwise e0 becomes current instead of the previous one."
  },
  {
   "property": "C58",
   "status": "partial",
   "theorems": [
    "C58_group_length",
    "C58_refuted"
   ],
   "note": "False in every schedule: each process opens the file separately and writes from its beginning."
  },
  {
   "property": "C59",
   "status": "partial",
   "theorems": [
    "C59_functions_partial",
    "C59_cut_refuted"
   ],
   "note": "Proved for functions whose quotes are balanced the way shlex reads them and which do not have declare and () as words. False in general: a line NAME () { inside a function, as in a here document, cuts it; see C42 for others."
  },
  {
   "property": "C60",
   "status": "proved",
   "theorems": [
    "C60_pipe_associative",
    "C60_group_associative"
   ],
   "note": "For clean pipelines (those C06 covers)."
  },
  {
   "property": "C61",
   "status": "proved",
   "theorems": [
    "C61_redirected_pipe",
    "C61_redirected_group"
   ],
   "note": "For clean pipelines (those C06 covers)."
  },
  {
   "property": "C62",
   "status": "partial",
   "theorems": [
    "C62_later_redirect_ignored_refuted",
    "C62_other_descriptor_partial"
   ],
   "note": "False of the code: the redirect written first wins, the later file is not even opened. It holds for different descriptors."
  },
  {
   "property": "C63",
   "status": "partial",
   "theorems": [
    "C63_goes_on_iff",
    "C63_one_shell_partial",
    "C63_closed_stderr_refuted",
    "C63_subshell_refuted"
   ],
   "note": "Exact characterisation. False when SIGINT arrives between fork and exec, when a failing command's standard error cannot be written, and for every subshell (its sys.exit is a SystemExit that leaves _run: handlers, finally blocks and an interactive prompt of the caller run in the child)."
  },
  {
   "property": "C64",
   "status": "proved",
   "theorems": [
    "C64_not_started_fails",
    "C64_only_then"
   ],
   "note": "If the child's standard error can be written and no SIGINT arrives (otherwise C63)."
  },
  {
   "property": "C65",
   "status": "partial",
   "theorems": [
    "C65_started_anyway_refuted",
    "C65_missing_input_refuted"
   ],
   "note": "False of the code: Redirects.perform logs and swallows the exception, the program runs with whatever descriptors it has by then."
  },
  {
   "property": "C66",
   "status": "proved",
   "theorems": [
    "C66_which_program",
    "C66_found"
   ],
   "note": ""
  },
  {
   "property": "C67",
   "status": "partial",
   "theorems": [
    "C67_assignment_breaks_commands_refuted",
    "C67_strings_partial"
   ],
   "note": "False for values that are not strings assigned to the name of an exported variable of an environment with its own exports: execvpe raises for every command."
  },
  {
   "property": "C68",
   "status": "partial",
   "theorems": [
    "C68_status",
    "C68_success_partial",
    "C68_last_fails_partial",
    "C68_success_reported_refuted"
   ],
   "note": "False when an item other than the last fails, or the last is a function: the exit code is that of the last item, functions have 0."
  },
  {
   "property": "C69",
   "status": "partial",
   "theorems": [
    "C69_which_file",
    "C69_relative_to_environment_partial",
    "C69_refuted"
   ],
   "note": "False: redirects are made before chdir, so relative names refer to the directory of the shell's process."
  },
  {
   "property": "C70",
   "status": "proved",
   "theorems": [
    "C70_exact"
   ],
   "note": ""
  },
  {
   "property": "C71",
   "status": "partial",
   "theorems": [
    "C71_strings_read_back",
    "C71_retyped_partial",
    "C71_group_refuted",
    "C71_arguments_refuted",
    "C71_names_refuted"
   ],
   "note": "Every string literal reads back, and so does every pipeline of commands without pipes inside groups, whose words expand to themselves and whose leading words are usable as names. False in general: pipes inside groups are printed without parentheses; R(...) and pipeline arguments are lost; words that are python keywords or method names cannot be typed in."
  },
  {
   "property": "C72",
   "status": "partial",
   "theorems": [
    "C72_repr_restores",
    "C72_insert_refuted",
    "C72_display_runs_partial",
    "C72_display_list"
   ],
   "note": "repr() restores its state, raises nothing, and runs nothing unless an argument inserts the output of a command (%(cmd)s), which it runs at each printing. Display at the prompt is characterised exactly for values without such arguments."
  },
  {
   "property": "C73",
   "status": "proved",
   "theorems": [
    "C73_sent_bytes_arrive",
    "C73_injective"
   ],
   "note": "base64 and the words of a POSIX shell line (BashSpec.sh_read) are modelled; pickle itself is C75."
  },
  {
   "property": "C74",
   "status": "partial",
   "theorems": [
    "C74_help_version",
    "C74_actions",
    "C74_log_refuted",
    "C74_no_value"
   ],
   "note": "True except for --log, which raises AttributeError for every value (log.py has no debug); --cmd and --pcmd without a value raise too."
  },
  {
   "property": "C75",
   "status": "partial",
   "theorems": [
    "C75_same_pipeline",
    "C75_when_partial",
    "C75_raw_refuted",
    "C75_history_refuted",
    "C75_python311_refuted"
   ],
   "note": "What arrives is the same pipeline, and when something arrives is characterised exactly. False in general: R(...) arguments, functions without a global name, and any earlier run with a STRING or TMP redirect (the default stderr) make loading fail; with python 3.11 or later nothing can be pickled. Pickle's memo (shared and cyclic objects) is simplified."
  },
  {
   "property": "C76",
   "status": "partial",
   "theorems": [
    "C76_started_is_reported",
    "C76_single_partial",
    "C76_single_descriptors_partial",
    "C76_pipe_left_running",
    "C76_pipe_refuted",
    "C76_group_refuted",
    "C76_descriptors_refuted"
   ],
   "note": "On success exactly the reported items were started, for every pipeline; a single command with ordinary words starts nothing when it fails. False in general: in a pipe the left command keeps running when the right one cannot be started, and pipe ends are left open."
  },
  {
   "property": "C77",
   "status": "partial",
   "theorems": [
    "C77_pipes",
    "C77_one_redirect_partial",
    "C77_redirect_objects",
    "C77_both_ends_refuted",
    "C77_redirect_then_pipe_refuted",
    "C77_pipe_then_in_refuted",
    "C77_groups",
    "C77_precedence",
    "C77_operands",
    "C77_bad_operand"
   ],
   "note": "Pipes and a single redirect to a file do. False in general: cmd < 'in' > 'out' compares the two names, a redirect before a pipe goes to the wrong command, and < after a pipe goes to the first command."
  },
  {
   "property": "C78",
   "status": "partial",
   "theorems": [
    "C78_plain_partial",
    "C78_inserted_refuted",
    "C78_how_often",
    "C78_nested"
   ],
   "note": "Commands of the pipeline are started exactly once. Inserted commands are started 3 + k times (k operators around them), because the log lines print the pipeline and printing expands its words; nested insertions multiply."
  },
  {
   "property": "C79",
   "status": "partial",
   "theorems": [
    "C79_fresh_partial",
    "C79_cleared",
    "C79_stale_refuted",
    "C79_builtin_refuted",
    "C79_missing_directory_refuted",
    "C79_unique"
   ],
   "note": "The first answer (and the one after env._clear_dir_cache()) is right if all directories of PATH can be read. False in general: the cache is never invalidated, the clear_dir_cache builtin does not clear it, and a PATH directory that does not exist raises once and leaves a truncated list for ever."
  },
  {
   "property": "C80",
   "status": "partial",
   "theorems": [
    "C80_which_file",
    "C80_not_found",
    "C80_import_partial",
    "C80_again",
    "C80_failed_import_refuted",
    "C80_not_python_refuted",
    "C80_unreadable_refuted",
    "C80_python312_refuted"
   ],
   "note": "The right file is found and executed once. False in general: exceptions and syntax errors are printed and the import succeeds; an unreadable file raises only the first time; python 3.12 ignores the finder. Statements are modelled as state transformers that end normally, raise or exit."
  },
  {
   "property": "C81",
   "status": "partial",
   "theorems": [
    "C81_success",
    "C81_exit",
    "C81_failed_script_refuted",
    "C81_not_python_refuted",
    "C81_cmd_refuted",
    "C81_pcmd"
   ],
   "note": "Successful scripts give 0, sys.exit(n) gives n, an unreadable file 1, --pcmd tells. False in general: a script or --cmd that raises gives 0 and later files are executed."
  },
  {
   "property": "C82",
   "status": "partial",
   "theorems": [
    "C82_prompt_partial",
    "C82_derived_refuted",
    "C82_earlier_refuted",
    "C82_module_refuted",
    "C82_unknown_name"
   ],
   "note": "True of bare commands at the prompt after startup, for every history of assignments, exports and deletions. False in general: derived environments, .pysh modules, pyshfunctions and --no-startup see environment variables only (the EnvScope constructor does not link the environment), and an environment that was env earlier sees the variables of the present one."
  },
  {
   "property": "C83",
   "status": "partial",
   "theorems": [
    "C83_words_partial",
    "C83_executed_refuted",
    "C83_expanded_refuted",
    "C83_apostrophe_refuted",
    "C83_empty_refuted",
    "C83_percent_refuted"
   ],
   "note": "True for words without special characters and for most words with blanks. False in general: words without blanks are not quoted and the line is eval'ed by bash, so a semicolon or $(...) in a word is executed by completing; empty words vanish; the line is expanded once more. Bash's reading of a line is BashSpec.sh_read."
  },
  {
   "property": "C84",
   "status": "partial",
   "theorems": [
    "C84_below_home",
    "C84_elsewhere_partial",
    "C84_refuted",
    "C84_root_refuted"
   ],
   "note": "True at and below the home directory and where the path does not begin with its characters. False in general: /home/u2 is shown as ~2 if the home directory is /home/u, and everything is shown wrongly if it is /."
  },
  {
   "property": "C85",
   "status": "partial",
   "theorems": [
    "C85_last_pipeline_partial",
    "C85_nested",
    "C85_text",
    "C85_refuted"
   ],
   "note": "True once something has been run; before, the prompt stores a command object in last_pipeline. What the prompt runs is an arbitrary state transformer."
  },
  {
   "property": "C86",
   "status": "partial",
   "theorems": [
    "C86_existing_kept",
    "C86_installed_partial",
    "C86_alone_partial",
    "C86_crash_refuted",
    "C86_race_refuted",
    "C86_overwritten_refuted",
    "C86_errors"
   ],
   "note": "An existing configuration is never changed, and without failures the complete default is installed by any number of pieshells. False in general: a crash leaves any initial part of it for ever, another pieshell starting at the same time executes such a part, and a file created between the test and the open is truncated."
  },
  {
   "property": "C87",
   "status": "proved",
   "theorems": [
    "C87_bytes",
    "C87_lines",
    "C87_bytes_no_deadlock",
    "C87_lines_no_deadlock",
    "C87_bytes_finite",
    "C87_lines_finite",
    "C87_ended_no_process_left"
   ],
   "note": "For chains of programs that terminate on their input; not being stuck and finiteness need programs that exit when a write fails with EPIPE (pieshell leaves SIGPIPE ignored in its children). Which process holds which pipe end is read off the descriptor tables the started processes and the shell really have; programs are arbitrary deterministic readers and writers of bytes."
  },
  {
   "property": "C88",
   "status": "partial",
   "theorems": [
    "C88_bytes",
    "C88_lines",
    "C88_through_cat",
    "C88_finite",
    "C88_ended_no_process_left",
    "C88_fails",
    "C88_succeeds",
    "C88_no_deadlock_partial",
    "C88_no_deadlock_refuted",
    "C88_early_exit_no_deadlock_refuted"
   ],
   "note": "The output is right under every schedule. Not being stuck is proved when the programs read all of their input and the items together fit into one pipe, and false otherwise: os.write on the pipe blocks the event loop, so [item] | cat with an item longer than two pipes comes to a standstill; and list(['a', 'b'] | head -1) may wait for ever, since nobody wakes the waiter when the function is the last item to end and has failed."
  },
  {
   "property": "C89",
   "status": "proved",
   "theorems": [
    "C89_bytes",
    "C89_lines",
    "C89_bytes_no_deadlock",
    "C89_lines_no_deadlock",
    "C89_endless_fails",
    "C89_never_ends"
   ],
   "note": "A program that may go on for ever must write or exit again and again; 'provided' and the last clause of the property are theorems of their own."
  },
  {
   "property": "C90",
   "status": "partial",
   "theorems": [
    "C90_fails",
    "C90_succeeds",
    "C90_verdict_determined_refuted"
   ],
   "note": "Raising when a program fails is proved for programs that exit with a failure when a write fails; not raising when all succeed is proved when they also read all of their input. Otherwise it depends on the schedule: with SIGPIPE ignored, echo | head -1 raises or not depending on who is faster."
  },
  {
   "property": "C91",
   "status": "proved",
   "theorems": [
    "C91_bytes",
    "C91_lines",
    "C91_map",
    "C91_nobody_left",
    "C91_no_deadlock",
    "C91_verdict",
    "C91_finite"
   ],
   "note": "For items that terminate on their input. 'Short' is a third of the free space poll(2) requires to report a pipe writable (4096 bytes on Linux): up to three values may be written after one report, and a write that does not fit blocks the event loop (C88_no_deadlock_refuted). Functions are deterministic; the processes' pipe ends are read off the descriptor tables _run leaves behind."
  },
  {
   "property": "C92",
   "status": "partial",
   "theorems": [
    "C92_early_end_refuted",
    "C92_too_much_refuted"
   ],
   "note": "False: when the generator of a function ends, only its output is closed, its input stays open for ever, so the program before it never gets EPIPE. Proved at any position in a pipeline, for every function and schedule: before an endless program the iteration never ends, nor if the program writes more than a pipe holds after the lines the function asks for."
  },
  {
   "property": "C93",
   "status": "partial",
   "theorems": [
    "C93_retyped_partial",
    "C93_order_refuted",
    "C93_number_refuted",
    "C93_value_refuted",
    "C93_truth_refuted",
    "C93_repeated_refuted",
    "C93_negative_refuted",
    "C93_comma_refuted",
    "C93_expanded_again"
   ],
   "note": "Proved for names, short options whose letters form a name, other words (quoted) and --key=number options at the end. False in general: long options are moved to the end and repeated ones lost, values that are names become commands to be run, True and False vanish, numbers among the names cannot be read, negative numbers cannot be executed, and words are expanded again. Which strings slugify leaves unchanged is a hypothesis; names denote commands of the environment."
  },
  {
   "property": "C94",
   "status": "partial",
   "theorems": [
    "C94_exact_partial",
    "C94_cut_refuted",
    "C94_missed_refuted",
    "C94_keyword_refuted"
   ],
   "note": "Proved for options of two or more letters and dashes after a blank. False in general: --utf8 is offered as utf, which is no option; options of one letter or behind a comma or bracket are missed; and one option called like a python keyword makes the whole signature raise. The computation of the annotations (enum, typing) enters as a parameter that may fail."
  },
  {
   "property": "C95",
   "status": "partial",
   "theorems": [
    "C95_bytes",
    "C95_lines",
    "C95_no_deadlock",
    "C95_finite",
    "C95_fails",
    "C95_succeeds",
    "C95_shared_input_refuted"
   ],
   "note": "For programs that terminate on their input and exit with a failure when a write fails. Argument pipelines inherit the standard input of the command: proved if they do not read it or it is at its end; otherwise the property is false, the arguments race for the input (C95_shared_input_refuted). Files behind word arguments are not modelled."
  },
  {
   "property": "C96",
   "status": "partial",
   "theorems": [
    "C96_too_much_refuted",
    "C96_goes_on_refuted",
    "C96_short"
   ],
   "note": "False: nothing closes the descriptor of an iteration that is left, so the last process never gets EPIPE; if what is left of its output does not fit into the pipe and one read of 1024 bytes, it is there for ever, under every schedule. Proved: if the output fits into the pipe all processes come to their end. That python's garbage collector might collect the handler is not modelled: the event loop's selector refers to it as long as it is waiting."
  },
  {
   "property": "C97",
   "status": "partial",
   "theorems": [
    "C97_own_output",
    "C97_all_of_it",
    "C97_deaf_refuted",
    "C97_stolen_refuted"
   ],
   "note": "Proved for all histories in which no running pipeline is iterated over twice, which is so for list(cmd), str(cmd) and for-loops over pipelines, each of which runs the pipeline anew. False for a second iteration over one running pipeline: it replaces the first one's callback in the event loop, which then waits for ever, and if the first had ended and its descriptor number was given to another pipeline, it takes that pipeline's output."
  },
  {
   "property": "C98",
   "status": "partial",
   "theorems": [
    "C98_output_partial",
    "C98_string_refuted",
    "C98_bytes_refuted",
    "C98_silent_refuted"
   ],
   "note": "Proved for asynchronous generators, generators without a for loop over their input, lists of values and coroutines, coroutines, and objects that cannot be iterated over, also when they raise or yield what cannot be encoded, for inputs that are utf-8. False for a function returning a string (each character becomes a line; right only for one character) or bytes (each becomes its decimal number; never right), and for a generator that loops over its input with for, an object with __aiter__ only, or a pipeline: nothing is output. StopAsyncIteration raised inside a coroutine is not modelled."
  },
  {
   "property": "C99",
   "status": "partial",
   "theorems": [
    "C99_map_refuted",
    "C99_async_map"
   ],
   "note": "False for every function: map's generator loops with for over a handler that has __aiter__ only, so nothing is ever output. Proved for the same generator with async for. jsonutils.filter cannot be called at all (it refers to an undefined name)."
  }
 ]
}