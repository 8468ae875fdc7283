{"id": "C01", "title": "Redirect sets behave as a map where the last registration wins", "statement": "A Redirects object holds at most one redirect per file descriptor. After any sequence of register/redirect/merge operations the redirect held for fd n is the one most recently registered for n (a registration whose source is None removes it and raises KeyError when there is none), every other descriptor is untouched, and merge(a, b) gives b's redirect where b has one and a's otherwise.", "quantifier": "all sequences of register / redirect / merge / borrow operations over all descriptors and sources", "why_tests_cant": "the law ranges over unbounded operation histories and all descriptors", "anchors": ["pieshell/redir.py:Redirects.__init__", "pieshell/redir.py:Redirects.register", "pieshell/redir.py:Redirects.merge"]}
{"id": "C02", "title": "The free descriptor chosen for moving or for an argument pipe is really free", "statement": "find_free_fd() returns a descriptor greater than 2, greater than every redirected descriptor and greater than every descriptor used as a source, so placing something there can never clobber a redirect.", "quantifier": "all redirect sets", "why_tests_cant": "ranges over all redirect sets", "anchors": ["pieshell/redir.py:Redirects.find_free_fd", "pieshell/redir.py:Redirects.move_existing_fds"]}
{"id": "C03", "title": "A child process ends up with exactly the redirected descriptors", "statement": "When a child performs its redirects, every redirected descriptor refers to the requested open file (even when sources and targets overlap, swap or form cycles), every other descriptor below the limit is closed, and the log descriptor is untouched.", "quantifier": "all redirect sets with pairwise distinct open sources, all initial descriptor tables and all permutations of sources and targets", "why_tests_cant": "overlaps between source and target numbers form an unbounded combinatorial space (swaps, cycles, shifts)", "anchors": ["pieshell/redir.py:Redirects.perform", "pieshell/redir.py:Redirect.move", "pieshell/redir.py:Redirect.perform", "pieshell/redir.py:Redirects.close_other_fds"]}
{"id": "C04", "title": "Redirecting two descriptors to the same open descriptor (2>&1)", "statement": "A command run with two descriptors redirected to the same descriptor number gets both of them connected to that file.", "quantifier": "all redirect sets in which two redirects share a source descriptor", "why_tests_cant": "the failure depends on the combination of redirects, not on one of them", "anchors": ["pieshell/redir.py:Redirect.move", "pieshell/redir.py:Redirects.perform"]}
{"id": "C05", "title": "A file redirect is performed whatever the state of the descriptor table", "statement": "A redirect of descriptor n to a file path takes effect in the child for every initial descriptor table, including when n itself is the lowest free descriptor.", "quantifier": "all descriptor tables and all target descriptors", "why_tests_cant": "depends on which descriptors happen to be free at fork time", "anchors": ["pieshell/redir.py:Redirect.perform", "pieshell/redir.py:Redirect.open"]}
{"id": "C06", "title": "Running a pipeline wires each process to its neighbours and to nothing else", "statement": "For any nesting of pipes, groups, redirects and argument pipelines, each started process has as stdin the read end of the pipe written by its left neighbour (or the inherited / redirected stdin), as stdout the write end of the pipe read by its right neighbour (or the inherited / redirected stdout), and holds no other pipe end.", "quantifier": "all pipeline expressions (any depth and width) and all initial descriptor tables", "why_tests_cant": "unbounded family of expressions; one stray inherited end only shows up as a hang", "anchors": ["pieshell/pipeline/pipe.py:Pipe._run", "pieshell/pipeline/command.py:Command._run", "pieshell/pipeline/group.py:Group._run", "pieshell/pipeline/redirect.py:CmdRedirect._run"]}
{"id": "C07", "title": "Starting a pipeline leaks no pipe end in the shell", "statement": "After run() returns, the shell process has open exactly the descriptors it had before, plus the pipe end handed to the caller and the descriptors owned by python functions in the pipeline; in particular it keeps no end of an internal pipe, so EOF and EPIPE propagate.", "quantifier": "all pipeline expressions whose redirects do not override a pipe, all initial descriptor tables", "why_tests_cant": "leaks do not change output; they only cause hangs under particular data volumes and schedules", "anchors": ["pieshell/redir.py:Redirects.close_source_fds", "pieshell/pipeline/pipe.py:Pipe._run", "pieshell/pipeline/command.py:Command._run", "pieshell/pipeline/function.py:Function._run"]}
{"id": "C08", "title": "A redirect that overrides a pipe end does not leave that pipe end open", "statement": "In `a | (b < file)` the pipe that nobody reads is closed in the shell, so a gets EPIPE instead of blocking forever.", "quantifier": "all pipelines in which a redirect overrides a piped stdin or stdout", "why_tests_cant": "shows up only for writers that exceed the pipe capacity", "anchors": ["pieshell/pipeline/redirect.py:CmdRedirect._run", "pieshell/pipeline/pipe.py:Pipe._run"]}
{"id": "C09", "title": "A group's output is the output of both members", "statement": "Piping or iterating over `a + b` yields everything both a and b wrote.", "quantifier": "all groups inside a pipe or an iteration", "why_tests_cant": "output loss depends on which member writes", "anchors": ["pieshell/pipeline/group.py:Group._run"]}
{"id": "C10", "title": "Redirecting to an existing descriptor leaves it open in the shell", "statement": "After `cmd | Redirect('stderr', n)` has been started, descriptor n of the shell itself (e.g. 1, its stdout) is still open.", "quantifier": "all descriptor numbers given by the user as redirect source", "why_tests_cant": "needs the whole descriptor table of the shell as observable", "anchors": ["pieshell/redir.py:Redirect.close_source_fd", "pieshell/environ.py:Environment.__init__"]}
{"id": "C11", "title": "The exit code of a pipeline is that of its rightmost command", "statement": "RunningPipeline.processes lists the processes of argument pipelines before their command and left before right, so exit_code is the exit code of the rightmost command.", "quantifier": "all pipeline expressions containing at least one command on the right", "why_tests_cant": "unbounded family of expressions", "anchors": ["pieshell/pipeline/running.py:RunningPipeline.exit_code", "pieshell/pipeline/command.py:Command._run", "pieshell/pipeline/pipe.py:Pipe._run"]}
{"id": "C12", "title": "Every argument pipeline is visible to the command as its own readable /dev/fd file", "statement": "For each pipeline, iterator or function given as a command argument the command line contains /dev/fd/N with N different for every such argument and different from every other redirected descriptor, and in the child descriptor N is the read end (write end for functions) of that argument's pipe.", "quantifier": "all commands with any number of argument pipelines", "why_tests_cant": "number and kind of arguments is unbounded, numbering depends on the descriptor table", "anchors": ["pieshell/pipeline/command.py:Command._handle_arg_pipes", "pieshell/redir.py:Redirects.find_free_fd"]}
{"id": "C13", "title": "Iterating over a pipeline yields exactly the lines of its output", "statement": "Whatever the sizes of the chunks delivered by the OS and however reads interleave with the consumer, iterating yields the output split at newlines, with a final unterminated line included and no extra empty line; never a lost, duplicated, merged or split line.", "quantifier": "all byte streams, all chunkings, all interleavings of read events and consumer steps", "why_tests_cant": "chunk boundaries and event order are chosen by the kernel", "anchors": ["pieshell/iterio.py:LineInputHandler"]}
{"id": "C14", "title": "A consumer waiting for a line is always woken", "statement": "If data containing a newline, or end of file, becomes available while the consumer is waiting, the read event wakes it; there is no reachable state where the consumer waits, the writer is done, and no event can make progress.", "quantifier": "all reachable states under all schedules", "why_tests_cant": "lost wake-ups depend on event order", "anchors": ["pieshell/iterio.py:LineInputHandler.handle_event", "pieshell/iterio.py:LineInputHandler.__anext__", "pieshell/iterio.py:InputHandler.handle_event"]}
{"id": "C15", "title": "bytes(pipeline) is the exact output of the pipeline", "statement": "The concatenation of the chunks returned by iterbytes() is byte for byte the output of the pipeline under every chunking and schedule, with nothing lost when events arrive before the consumer asks.", "quantifier": "all byte streams, chunkings and schedules", "why_tests_cant": "chunk boundaries and event order are chosen by the kernel", "anchors": ["pieshell/iterio.py:InputHandler", "pieshell/pipeline/base.py:Pipeline.__bytes__"]}
{"id": "C16", "title": "A python iterator is written item by item, in order, exactly once", "statement": "The output handler writes each item of the iterator followed by a newline, in order, exactly once, skipping None, whatever number of writability events and pending tasks are interleaved, never asks the iterator for two items concurrently, and closes the descriptor exactly once after the last item.", "quantifier": "all item sequences and all schedules of writability events, task steps and iterator completions", "why_tests_cant": "task interleavings are chosen by the event loop", "anchors": ["pieshell/iterio.py:LineOutputHandler.send_output", "pieshell/iterio.py:OutputHandler.handle_event", "pieshell/iterio.py:OutputHandler.destroy", "pieshell/iterio.py:IOHandler.destroy"]}
{"id": "C17", "title": "Items sent from one python function to another arrive unchanged", "statement": "Strings without newlines yielded by one function and piped into another are received as the same strings in the same order, for every pipe capacity and interleaving of writer, reader and consumer.", "quantifier": "all lists of newline-free strings, all chunkings, all interleavings", "why_tests_cant": "product of two schedules and arbitrary data", "anchors": ["pieshell/iterio.py:LineOutputHandler.send_output", "pieshell/iterio.py:LineInputHandler", "pieshell/pipeline/function.py:Function._run"]}
{"id": "C18", "title": "Text survives the UTF-8 encoding on the pipe", "statement": "Encoding a string as UTF-8, splitting the bytes at newline bytes, and decoding each line gives back the string's own lines: decoding inverts encoding for every string of Unicode scalar values and no multi-byte character ever contains a newline byte.", "quantifier": "all strings of Unicode scalar values", "why_tests_cant": "1.1 million code points and all their combinations", "anchors": ["pieshell/pipeline/function.py:Function._run", "pieshell/iterio.py:LineInputHandler.__anext__"]}
{"id": "C19", "title": "A handler never touches its descriptor after closing it", "statement": "Once a handler has closed its descriptor (end of file, end of iteration or error) it never reads, writes or closes that descriptor number again.", "quantifier": "all histories of events, tasks and errors", "why_tests_cant": "needs a write error to race with a pending task", "anchors": ["pieshell/iterio.py:IOHandler.destroy", "pieshell/iterio.py:LineOutputHandler.send_output"]}
{"id": "C20", "title": "Iteration that ends normally means every process succeeded", "statement": "Exhausting an iteration over a pipeline ends normally only after the pipeline has been waited for; if a process failed the iteration raises PipelineFailed after all lines have been delivered.", "quantifier": "all outputs and all exit statuses", "why_tests_cant": "relates stream end and process status over all schedules", "anchors": ["pieshell/iterio.py:LineInputHandler.__anext__", "pieshell/pipeline/running.py:RunningPipeline.__aiter__", "pieshell/pipeline/running.py:RunningPipeline.wait"]}
{"id": "C21", "title": "Child status words are decoded correctly", "statement": "For every status word the kernel can report, the event has the right code (exited / killed / dumped / stopped / continued) and the right exit status or signal number.", "quantifier": "all wait status words: 256 exit codes, all signals with and without core dump, stops and continue", "why_tests_cant": "tests exercise exit codes only", "anchors": ["pieshell/signalio/signalutils.py:get_sigchlds"]}
{"id": "C22", "title": "Every event of a child reaches that child's handler, in order, and no other process handler", "statement": "Whatever batch of child events is reaped on one SIGCHLD, each registered process handler sees exactly the events of its own pid, in the order reaped, up to and including its exit.", "quantifier": "all sets of registered handlers and all batches of events", "why_tests_cant": "signals are coalesced by the kernel in arbitrary batches", "anchors": ["pieshell/signalio/manager_signalfd.py:SignalManager.handle_event", "pieshell/signalio/manager_signalfd.py:SignalManager.register", "pieshell/signalio/__init__.py:ProcessSignalHandler"]}
{"id": "C23", "title": "No exit is lost however children race with the shell", "statement": "However fast children exit and however their SIGCHLDs are merged, every child that exited normally is reported as not running with its own exit code once the loop has handled a SIGCHLD delivered after the exit.", "quantifier": "all interleavings of forks, exits, signal deliveries and reaps", "why_tests_cant": "race between fork, exit and registration", "anchors": ["pieshell/signalio/signalutils.py:get_sigchlds", "pieshell/signalio/__init__.py:ProcessSignalHandler", "pieshell/pipeline/running.py:RunningProcess"]}
{"id": "C24", "title": "A process that has terminated is not reported as running", "statement": "A process that terminated for any reason (exit or killed by a signal) is reported with is_running False after its event is handled, so that wait() returns.", "quantifier": "all terminations, including by signal", "why_tests_cant": "tests never kill a child", "anchors": ["pieshell/signalio/__init__.py:ProcessSignalHandler.handle_event"]}
{"id": "C25", "title": "CTRL-Z reaches the foreground pipeline", "statement": "A SIGTSTP delivered to the shell while it waits for an interactive pipeline suspends that pipeline, with either signal manager.", "quantifier": "all handler registrations and all histories of child events", "why_tests_cant": "depends on the signal backend and a closure binding", "anchors": ["pieshell/signalio/manager_asyncio.py:SignalManager", "pieshell/signalio/manager_signalfd.py:SignalManager", "pieshell/pipeline/running.py:StopSignalHandler"]}
{"id": "C26", "title": "wait() reports success, failure or suspension truthfully", "statement": "wait() returns normally only when every process has finished and none failed, raises PipelineFailed only when every process has finished and some failed, and raises PipelineSuspended only when suspension was requested, in which case it has sent a stop to every process.", "quantifier": "all numbers of processes, completion orders and statuses", "why_tests_cant": "completion order and timing are chosen by the OS", "anchors": ["pieshell/pipeline/running.py:RunningPipeline.wait"]}
{"id": "C27", "title": "A waiter is woken when the pipeline has finished", "statement": "For every order in which the processes and functions of a pipeline finish or fail, wait() eventually returns or raises once all have finished.", "quantifier": "all completion orders and outcomes, any number of concurrent waiters", "why_tests_cant": "lost wake-ups depend on order and outcome", "anchors": ["pieshell/pipeline/running.py:RunningItem.await_finish", "pieshell/pipeline/running.py:RunningPipeline.handle_finish", "pieshell/pipeline/running.py:RunningPipeline.wait"]}
{"id": "C28", "title": "End-of-pipeline clean-up happens exactly once and loses no captured output", "statement": "When the last process finishes, the text of every STRING file (as python's text mode reads it) is recorded for every process that uses it (also when several processes share one file), each such file is then removed, and this happens exactly once however many finish notifications arrive.", "quantifier": "all assignments of STRING files to processes, all completion orders", "why_tests_cant": "sharing between processes and repeated notifications", "anchors": ["pieshell/pipeline/running.py:RunningPipeline.handle_finish", "pieshell/pipeline/running.py:RunningItem.handle_pipeline_finish", "pieshell/pipeline/running.py:RunningItem.handle_pipeline_finish_destructive"]}
{"id": "C29", "title": "running_pipelines lists exactly the pipelines still running", "statement": "After any history of starting pipelines and processes finishing, env.running_pipelines contains a pipeline iff it has been started and has not finished.", "quantifier": "all histories of starts and completions", "why_tests_cant": "unbounded histories", "anchors": ["pieshell/pipeline/base.py:Pipeline.run", "pieshell/pipeline/running.py:RunningPipeline.handle_finish"]}
{"id": "C30", "title": "Signals are only sent to processes that have not been reaped", "statement": "restart(), suspend() and wait() never send a signal to a pid whose process has already been reaped (the pid may belong to someone else).", "quantifier": "all histories of completions and job-control calls", "why_tests_cant": "needs pid reuse", "anchors": ["pieshell/pipeline/running.py:RunningProcess.restart", "pieshell/pipeline/running.py:RunningProcess.suspend", "pieshell/pipeline/running.py:RunningPipeline.wait"]}
{"id": "C31", "title": "All ways of writing a command line are equivalent", "statement": "Attribute access and calls can be mixed freely: any split of a list of words into attribute accesses and call arguments denotes the same command, with the same builtin dispatched on the first word.", "quantifier": "all word lists and all ways to split them (for words that are not attributes of the command object)", "why_tests_cant": "exponentially many spellings", "anchors": ["pieshell/pipeline/command.py:BaseCommand.__call__", "pieshell/pipeline/command.py:BaseCommand.__getattr__", "pieshell/pipeline/command.py:BaseCommand.__new__", "pieshell/environ.py:Environment.__getattr__"]}
{"id": "C32", "title": "The command line is built from the arguments in order", "statement": "The argument vector is the concatenation, in order, of each argument's expansion; named arguments become --name=value with underscores turned into dashes, True gives --name, False gives nothing, and a wrapped R(...) string appears verbatim.", "quantifier": "all argument lists", "why_tests_cant": "unbounded argument lists and contents", "anchors": ["pieshell/pipeline/command.py:BaseCommand._arg_list", "pieshell/environ.py:Environment._expand_argument"]}
{"id": "C33", "title": "An argument never disappears by expansion", "statement": "Every positional string argument contributes at least one word to the command line, and a string without %, leading ~ and glob characters contributes exactly itself.", "quantifier": "all strings, variable scopes and file systems", "why_tests_cant": "ranges over all strings and all file systems", "anchors": ["pieshell/environ.py:Environment._expand_argument"]}
{"id": "C34", "title": "Glob results name the same files for the child", "statement": "Every word produced by a glob, interpreted relative to the environment's directory (the child's cwd), names exactly a file that the pattern matched.", "quantifier": "all directories, patterns and match lists", "why_tests_cant": "ranges over all file systems", "anchors": ["pieshell/environ.py:Environment._expand_argument", "pieshell/pipeline/command.py:Command._child"]}
{"id": "C35", "title": "The current directory of an environment is always an absolute normalised path", "statement": "After any sequence of cd operations the environment's directory is absolute, contains no . or .. or empty component, and is the lexical resolution of the operands one after the other; a cd to a missing path raises and changes nothing.", "quantifier": "all sequences of cd operands, all home directories and all file systems", "why_tests_cant": "unbounded histories and strings", "anchors": ["pieshell/environ.py:Environment._cd", "pieshell/environ.py:Environment._expand_path", "pieshell/pipeline/builtins.py:CdBuiltin._path"]}
{"id": "C36", "title": "Relative paths are relative to the environment's directory", "statement": "A path that is not absolute and not an existing user's home is resolved against the environment's own directory.", "quantifier": "all paths and environments", "why_tests_cant": "only visible for ~name operands when process cwd and env cwd differ", "anchors": ["pieshell/environ.py:Environment._expand_path"]}
{"id": "C37", "title": "Derived environments are independent", "statement": "env2 = env(...) starts with a copy of env's directory and variables, and later changes of directory or variables in either are invisible in the other; env itself is not changed by deriving.", "quantifier": "all histories of operations on a family of derived environments", "why_tests_cant": "aliasing shows only after particular histories", "anchors": ["pieshell/environ.py:Environment.__call__", "pieshell/environ.py:Environment.__init__"]}
{"id": "C38", "title": "An environment created with explicit variables passes exactly those to its children", "statement": "env(exports=d) runs commands with exactly the variables in d.", "quantifier": "all dictionaries, including the empty one", "why_tests_cant": "the empty dictionary is the corner case", "anchors": ["pieshell/environ.py:Environment._exports"]}
{"id": "C39", "title": "Scope variables read back what was assigned", "statement": "In an interactive scope, after name = value reading name gives value; exported names update the exported variable and other names stay local; no other name changes.", "quantifier": "all histories of assignments, exports updates and lookups", "why_tests_cant": "shadowing needs particular histories", "anchors": ["pieshell/environ.py:EnvScope.__setitem__", "pieshell/environ.py:EnvScope.__getitem__"]}
{"id": "C40", "title": "Name lookup follows one fixed precedence", "statement": "A bare name resolves to: local variable, then exports, then environment variable, then enclosing module scope, then python builtin, then environment attribute or command; a name found nowhere becomes a command, never a NameError.", "quantifier": "all names and scopes", "why_tests_cant": "ranges over all combinations of definitions", "anchors": ["pieshell/environ.py:EnvScope.__getitem__"]}
{"id": "C41", "title": "Running a pipeline does not change the pipeline object", "statement": "run() works on a copy: the original pipeline object and everything reachable from it through pipeline structure is unchanged, the copy has the same structure, shares no pipeline node with it, and distinct positions get distinct nodes even if the same object was used twice.", "quantifier": "all pipeline object graphs, with any sharing", "why_tests_cant": "ranges over all object graphs", "anchors": ["pieshell/utils/copy.py:deepcopy", "pieshell/utils/copy.py:copy_session", "pieshell/pipeline/base.py:Pipeline.run"]}
{"id": "C42", "title": "bashsource imports the variables bash printed", "statement": "parse_declares applied to the `declare -x` output of bash for a set of variables returns exactly these variables with exactly their values.", "quantifier": "all variable sets and values", "why_tests_cant": "values with special characters, empty input and last-line effects", "anchors": ["pieshell/pipeline/builtins.py:parse_declares", "pieshell/pipeline/builtins.py:BashSource"]}
{"id": "C43", "title": "bashsource sources exactly the named file", "statement": "The command line handed to bash is read by bash as the words `source` and the file name, for every file name.", "quantifier": "all file names", "why_tests_cant": "file names with quotes", "anchors": ["pieshell/pipeline/builtins.py:BashSource._run"]}
{"id": "C44", "title": "Every process of a pipeline can be found under exactly one attribute path", "statement": "The tree of named children of a running pipeline contains every process exactly once, and a process whose name is unique is found directly under that name; building the tree terminates.", "quantifier": "all process lists and all names", "why_tests_cant": "collisions of names at several levels", "anchors": ["pieshell/tree.py:TreeGroup", "pieshell/pipeline/running.py:RunningProcess._getkey"]}
{"id": "C45", "title": "Redirecting output to a file replaces the file's content", "statement": "After `cmd | 'file'` the file contains exactly what cmd wrote, as with > in a shell.", "quantifier": "all previous file contents and all outputs", "why_tests_cant": "visible only when the old content is longer", "anchors": ["pieshell/redir.py:Redirect.fd_flags", "pieshell/redir.py:Redirect.open"]}
{"id": "C46", "title": "A builtin can be used in a pipe", "statement": "`ls | cd` or `cd | ls` starts like any other pipeline: builtins that start no process are transparent or rejected before anything is started.", "quantifier": "all pipelines with a builtin at an end of a pipe, all descriptor tables", "why_tests_cant": "ranges over all pipelines and environments", "anchors": ["pieshell/pipeline/builtin.py:BuiltinCommand._run", "pieshell/pipeline/pipe.py:Pipe._run", "pieshell/pipeline/builtins.py:CdBuiltin"]}
{"id": "C47", "title": "A large item yielded by a function is written completely", "statement": "Each item a python function yields is written completely even when os.write accepts only part of it, or the failure is reported.", "quantifier": "all items and all short writes", "why_tests_cant": "depends on how much of each write the OS accepts", "anchors": ["pieshell/iterio.py:LineOutputHandler.send_output"]}
{"id": "C48", "title": "A pipe between two python functions never blocks the shell", "statement": "Piping one python function into another makes progress for every amount of data: writing never blocks the event loop that must also run the reader.", "quantifier": "all amounts of data, pipe capacities and schedules", "why_tests_cant": "depends on the schedule and the pipe capacity", "anchors": ["pieshell/iterio.py:LineOutputHandler.send_output", "pieshell/pipeline/function.py:Function._run"]}
{"id": "C49", "title": "Suspending a resumed job returns control to the shell", "statement": "After fg() of a job, CTRL-Z suspends the job and the statement that ran fg ends (with PipelineSuspended), so that the shell is usable again.", "quantifier": "all schedules of child events, signals and tasks after the CTRL-Z", "why_tests_cant": "a hang is only visible over all continuations, not in one run", "anchors": ["pieshell/pipeline/builtins.py:RunnningFg", "pieshell/pipeline/running.py:RunningPipeline.wait"]}
{"id": "C50", "title": "Iterating over a signal handler yields every event", "statement": "Iterating asynchronously over a SignalIteratorHandler yields every event that arrives, in order, each once.", "quantifier": "all sequences of events and consumer requests", "why_tests_cant": "depends on the interleaving of events and requests", "anchors": ["pieshell/signalio/__init__.py:SignalIteratorHandler"]}
{"id": "C51", "title": "remove_output_files() removes every temporary output file", "statement": "RunningPipeline.remove_output_files() removes the TMP file of every descriptor of every process of the pipeline and nothing else, without raising.", "quantifier": "all assignments of temporary files to descriptors of processes", "why_tests_cant": "files can be shared between a command and its argument pipelines", "anchors": ["pieshell/pipeline/running.py:BaseRunningItem.remove_output_files", "pieshell/pipeline/running.py:RunningPipeline.remove_output_files"]}
{"id": "C52", "title": "A signal event reaches exactly the handlers whose filter it matches", "statement": "After any history of creating and destroying signal handlers, an event is handed to every live handler whose filter it matches, in order of creation, and to no other; one handler's failure does not keep the others from getting events.", "quantifier": "all histories of handlers, all events and batches", "why_tests_cant": "all histories", "anchors": ["pieshell/signalio/manager_signalfd.py:SignalManager.register", "pieshell/signalio/manager_signalfd.py:SignalManager.handle_event", "pieshell/signalio/manager_asyncio.py:SignalManager"]}
{"id": "C53", "title": "Only directories can become the current directory", "statement": "cd to something that is not a directory raises and leaves the environment unchanged.", "quantifier": "all operands and file systems", "why_tests_cant": "ranges over all operands and file systems", "anchors": ["pieshell/environ.py:Environment._cd"]}
{"id": "C54", "title": "Globbed file names are never taken for options", "statement": "Every word that comes from expanding a pattern begins with / or ./, so a file called -rf cannot become an option; any other word is the argument as the user wrote it.", "quantifier": "all patterns, directories and file names", "why_tests_cant": "File names are chosen by others: any name in any directory may occur.", "anchors": ["pieshell/environ.py:Environment._expand_argument"]}
{"id": "C55", "title": "A variable's value is inserted as it is", "statement": "An argument of the form text%(name)stext contributes one word with the variable's value in place, whatever characters the value contains.", "quantifier": "all values, all surrounding texts", "why_tests_cant": "Values come from the outside and may contain any character.", "anchors": ["pieshell/environ.py:Environment._expand_argument"]}
{"id": "C56", "title": "Non-string arguments reach the program", "statement": "A positional argument that is a number or another plain object reaches the program as its string form.", "quantifier": "all values and all commands", "why_tests_cant": "Ranges over all values and positions.", "anchors": ["pieshell/pipeline/command.py:Command._handle_arg_pipes", "pieshell/pipeline/command.py:Command._child"]}
{"id": "C57", "title": "temporary_env restores the environment that was current", "statement": "Inside `with e0.temporary_env(e):` bare commands run in e; when the block ends, normally or with an exception, the environment that was current before is current again.", "quantifier": "all scopes, environments and block bodies", "why_tests_cant": "the wrong environment comes back only if e0 was not the current one", "anchors": ["pieshell/environ.py:Environment.temporary_env"]}
{"id": "C58", "title": "Output of a group redirected to a file reaches the file", "statement": "After `(a + b) | 'file'` the file contains everything a and b wrote.", "quantifier": "all outputs and all interleavings of the writes", "why_tests_cant": "both processes must write, and the loss depends on the schedule", "anchors": ["pieshell/pipeline/group.py:Group._run", "pieshell/redir.py:Redirect.open", "pieshell/redir.py:Redirect.perform"]}
{"id": "C59", "title": "bashsource keeps the functions bash printed", "statement": "After bashsource every function bash printed is stored under its name with exactly its text, and functions known before stay.", "quantifier": "all lists of functions and bodies", "why_tests_cant": "the text is cut out of the output by line numbers counted by a lexer", "anchors": ["pieshell/pipeline/builtins.py:parse_declares", "pieshell/pipeline/builtins.py:BashSource.parse_decls"]}
{"id": "C60", "title": "How a pipeline is bracketed does not matter", "statement": "(a | b) | c and a | (b | c) start the same processes, each connected to the same files and pipes, with the same output for the caller; likewise (a + b) + c and a + (b + c).", "quantifier": "all pipelines a, b, c that start cleanly, all descriptor tables and limits", "why_tests_cant": "ranges over all pipelines and descriptor tables", "anchors": ["pieshell/pipeline/pipe.py:Pipe._run", "pieshell/pipeline/group.py:Group._run", "pieshell/pipeline/base.py:Pipeline.run"]}
{"id": "C61", "title": "Redirecting a pipeline redirects its ends", "statement": "Redirecting a | b gives a the stdin redirect, b the stdout redirect and both every other redirect; redirecting a + b redirects both: the same processes are started as if the redirects had been written there.", "quantifier": "all pipelines a, b and redirect sets", "why_tests_cant": "ranges over all pipelines, redirect sets and descriptor tables", "anchors": ["pieshell/pipeline/redirect.py:CmdRedirect._run", "pieshell/pipeline/pipe.py:Pipe._run", "pieshell/redir.py:Redirects.merge"]}
{"id": "C62", "title": "Redirecting again replaces the earlier redirect", "statement": "If a descriptor is redirected twice, as in cmd | 'f' | 'g', the last redirect written is the one in force.", "quantifier": "all pipelines and pairs of redirects of one descriptor", "why_tests_cant": "ranges over all pipelines and redirects", "anchors": ["pieshell/pipeline/redirect.py:CmdRedirect._run", "pieshell/redir.py:Redirects.merge"]}
{"id": "C63", "title": "The user's program is run by one process only", "statement": "Starting a command never makes a second copy of the user's program: the forked child executes the program or exits, and no statement or handler of the calling code runs in it.", "quantifier": "all commands, redirects, descriptor tables, answers of the operating system and arrivals of SIGINT", "why_tests_cant": "depends on failures and signals between fork and exec", "anchors": ["pieshell/pipeline/command.py:Command._run", "pieshell/pipeline/command.py:Command._child", "pieshell/pipeline/builtins.py:SubShell._child"]}
{"id": "C64", "title": "A command that cannot be started is reported as failed", "statement": "If the program of a command does not exist or cannot be executed, or its directory cannot be entered, the process ends with a non-zero exit code; a process that became a program never gets that status from pieshell.", "quantifier": "all commands, environments and answers of the operating system", "why_tests_cant": "ranges over all failures of the operating system", "anchors": ["pieshell/pipeline/command.py:Command._run"]}
{"id": "C65", "title": "A command is not run when one of its redirects fails", "statement": "If a file a command is redirected to cannot be opened, the command is not executed.", "quantifier": "all commands, redirects and descriptor tables", "why_tests_cant": "ranges over all redirect sets and failures", "anchors": ["pieshell/redir.py:Redirects.perform", "pieshell/pipeline/command.py:Command._child"]}
{"id": "C66", "title": "A command runs the first executable of its name in its environment's PATH", "statement": "The executed file is the command's name itself if it contains a slash, otherwise the first executable file of that name in the directories of the PATH of the command's own environment, as seen from that environment's directory.", "quantifier": "all names, PATHs, directories and file systems", "why_tests_cant": "ranges over all search paths and file systems", "anchors": ["pieshell/pipeline/command.py:Command._child"]}
{"id": "C67", "title": "Assigning a variable never breaks unrelated commands", "statement": "After an assignment at the prompt, commands that do not mention the variable can still be started.", "quantifier": "all scopes, names, values and commands", "why_tests_cant": "ranges over all values and later commands", "anchors": ["pieshell/environ.py:EnvScope.__setitem__", "pieshell/pipeline/command.py:Command._child"]}
{"id": "C68", "title": "A subshell fails iff its pipeline fails", "statement": "subshell(pipeline) exits with status 0 if no item of the pipeline failed and with a non-zero status otherwise.", "quantifier": "all ways the items of the pipeline end", "why_tests_cant": "ranges over all outcomes of all items", "anchors": ["pieshell/pipeline/builtins.py:SubShell._child", "pieshell/pipeline/running.py:RunningPipeline.exit_code"]}
{"id": "C69", "title": "A redirect to a file is relative to the environment's directory", "statement": "A relative file name in a redirect denotes a file in the directory of the command's environment, the directory the command runs in.", "quantifier": "all environments, process directories and file names", "why_tests_cant": "only visible when the process is in another directory", "anchors": ["pieshell/pipeline/command.py:Command._child", "pieshell/redir.py:Redirect.open"]}
{"id": "C70", "title": "A program gets exactly its environment's words, variables and directory", "statement": "The executed program gets the command's words as its arguments, in order, the variables of the command's environment and no others, and that environment's directory as working directory.", "quantifier": "all commands and environments", "why_tests_cant": "ranges over all commands and environments", "anchors": ["pieshell/pipeline/command.py:Command._child"]}
{"id": "C71", "title": "The printed form of a pipeline can be typed in again", "statement": "The printed form of a pipeline (without the trailing ' in <environment>'), typed at a prompt of the same environment, is a pipeline that runs the same commands with the same words, connected in the same way.", "quantifier": "all pipelines, words and characters", "why_tests_cant": "ranges over all pipelines and all strings", "anchors": ["pieshell/pipeline/command.py:BaseCommand._repr", "pieshell/pipeline/command.py:BaseCommand._split_args", "pieshell/pipeline/pipe.py:Pipe._repr", "pieshell/pipeline/group.py:Group._repr"]}
{"id": "C72", "title": "repr() of a pipeline does not run it; displaying it runs it once", "statement": "repr() never runs anything, never raises and leaves no trace; displaying a value at the prompt runs exactly the interactive, unstarted pipelines in it, once each, in order, until one fails.", "quantifier": "all nestings of values and pipelines", "why_tests_cant": "ranges over all nestings and failures", "anchors": ["pieshell/pipeline/base.py:pipeline_repr", "pieshell/pipeline/base.py:Pipeline.__repr__"]}
{"id": "C73", "title": "A pipeline sent with remote arrives byte for byte", "statement": "remote(words..., pipeline) starts ssh with the given words and one more word, which the shell on the other machine reads as the program pieshell with one option, from which pieshell decodes exactly the pickled bytes, whatever they are.", "quantifier": "all byte strings, words, scopes and directories", "why_tests_cant": "ranges over all byte strings and two levels of quoting", "anchors": ["pieshell/pipeline/builtins.py:Remote._run", "pieshell/shell.py:main"]}
{"id": "C74", "title": "Each command line option does what --help says", "statement": "pieshell's options are read as written, the last one of a name counting, in any position; --help and --version win, then --cmd, --pcmd, the files in order, the interactive shell; --no-startup and --ptpython switch what they say, --log=NAMES turns logging on.", "quantifier": "all command lines", "why_tests_cant": "ranges over all lists of words", "anchors": ["pieshell/shell.py:main"]}
{"id": "C75", "title": "A pipeline sent to another pieshell is the same pipeline there", "statement": "A pipeline that is pickled and unpickled (remote, --pcmd) is the same pipeline: the same commands, words, functions, environment; and every pipeline can be sent, whatever was run before.", "quantifier": "all pipelines, arguments, environments and earlier runs", "why_tests_cant": "ranges over all pipelines and all histories of the environment", "anchors": ["pieshell/pipeline/base.py:describable_object_reduce", "pieshell/pipeline/base.py:DescribableObject.__setstate__", "pieshell/environ.py:Environment.__getstate__", "pieshell/environ.py:R", "pieshell/redir.py:SpecialRedirect"]}
{"id": "C76", "title": "A pipeline that cannot be started leaves nothing behind", "statement": "If starting a pipeline raises, none of its processes has been started and no descriptor has been left open; if it succeeds, its processes are exactly those that were started.", "quantifier": "all pipelines, descriptor tables and limits", "why_tests_cant": "ranges over all pipelines and all points of failure", "anchors": ["pieshell/pipeline/pipe.py:Pipe._run", "pieshell/pipeline/group.py:Group._run", "pieshell/pipeline/command.py:Command._run", "pieshell/pipeline/function.py:Function._run"]}
{"id": "C77", "title": "|, < and > mean what they mean in a shell", "statement": "A line of commands joined by |, < and > denotes the pipeline a shell would run for it: pipes join commands left to right and a redirect belongs to the command it is written after.", "quantifier": "all lines of commands, files and operators", "why_tests_cant": "ranges over all expressions and python's precedence and chaining", "anchors": ["pieshell/pipeline/base.py:Pipeline.__or__", "pieshell/pipeline/base.py:Pipeline.__ror__", "pieshell/pipeline/base.py:Pipeline.__gt__", "pieshell/pipeline/base.py:Pipeline.__lt__", "pieshell/pipeline/base.py:Pipeline._coerce"]}
{"id": "C78", "title": "A command inserted in a word runs once each time the pipeline is run", "statement": "Running a pipeline starts each of its commands exactly once, and each command whose output a word inserts (\"%(date)s\" where date is a command) exactly once per word.", "quantifier": "all pipelines, argument pipelines and nested insertions", "why_tests_cant": "ranges over all pipelines", "anchors": ["pieshell/pipeline/command.py:Command._run", "pieshell/pipeline/command.py:BaseCommand._arg_list", "pieshell/environ.py:Environment._expand_argument", "pieshell/environ.py:EnvScope.__getitem__"]}
{"id": "C79", "title": "Completing a command name offers exactly the programs there are", "statement": "dir(env), from which command names are completed, is the sorted list of the entries of the directories of the environment's PATH and of the builtins, as they are now.", "quantifier": "all environments, file systems and histories of changes and completions", "why_tests_cant": "ranges over all histories of a cache", "anchors": ["pieshell/environ.py:Environment.__dir__", "pieshell/pipeline/builtins.py:ClearDirCacheBuiltin"]}
{"id": "C80", "title": "Importing a .pysh module executes the file or raises", "statement": "import NAME executes NAME.pysh from the first directory of sys.path that has one, once, in a fresh scope; if that does not succeed, the import raises.", "quantifier": "all paths, file systems, programs and earlier imports", "why_tests_cant": "ranges over all programs and points of failure", "anchors": ["pieshell/module.py:Finder.find_module", "pieshell/module.py:Loader.load_module", "pieshell/environ.py:EnvScope.execute_file"]}
{"id": "C81", "title": "pieshell's exit status tells whether its script succeeded", "statement": "pieshell FILE... and pieshell --cmd=... exit with status 0 iff all that was to be executed was, without an exception.", "quantifier": "all scripts and points of failure", "why_tests_cant": "ranges over all programs and points of failure", "anchors": ["pieshell/shell.py:main", "pieshell/environ.py:EnvScope.execute_file", "pieshell/environ.py:EnvScope.execute_expr"]}
{"id": "C82", "title": "%(name)s inserts what name denotes where the word is written", "statement": "A word containing %(name)s gets the value the name has in the code that writes the word: the local variable, the environment variable of the command's environment, and so on, in the order of name lookup.", "quantifier": "all scopes, environments and histories of assignments", "why_tests_cant": "ranges over all histories and all ways scopes and environments come about", "anchors": ["pieshell/environ.py:Environment._expand_argument", "pieshell/environ.py:EnvScope.__setitem__", "pieshell/environ.py:EnvScope.execute_startup", "pieshell/module.py:Loader.load_module", "pieshell/environ.py:Environment.pyshfunction"]}
{"id": "C83", "title": "Completing arguments executes nothing and completes the words typed", "statement": "Asking for completions of the arguments of a command (TAB, dir(cmd)) hands exactly the words of the command to bash's completion functions and executes nothing else.", "quantifier": "all command lines and characters", "why_tests_cant": "ranges over all words and two levels of quoting and expansion", "anchors": ["pieshell/pipeline/command.py:BaseCommand._arg_list_sh", "pieshell/pipeline/command.py:Command._complete", "pieshell/resources/get_completions"]}
{"id": "C84", "title": "The directory shown in the prompt is the current directory", "statement": "cd to the directory the prompt shows leads to the current directory.", "quantifier": "all directories, home directories and users", "why_tests_cant": "ranges over all pairs of directories", "anchors": ["pieshell/resources/default_config.pysh:compress_user"]}
{"id": "C85", "title": "Showing the prompt does not change what fg and bg act on", "statement": "last_pipeline is the same before and after the prompt is shown, whatever the prompt runs and even if it fails.", "quantifier": "all prompts and states", "why_tests_cant": "ranges over all outcomes of what the prompt runs", "anchors": ["pieshell/resources/default_config.pysh:prompt"]}
{"id": "C86", "title": "The user's configuration is kept, and the default one is installed completely or not at all", "statement": "Starting pieshell never changes a configuration file that exists; without one the complete default configuration is installed and executed, or nothing is, whatever fails, is killed or is started at the same moment.", "quantifier": "all configurations, numbers of pieshells started at once, interleavings, errors and crash points", "why_tests_cant": "ranges over all interleavings and crash points", "anchors": ["pieshell/environ.py:EnvScope.execute_startup", "pieshell/environ.py:EnvScope._copy_resource"]}
{"id": "C87", "title": "The output of a | b | ... is what the programs compute one after the other", "statement": "bytes(c0 | c1 | ... | cn) is the output of cn reading the output of ... reading the output of c0, and iterating gives its lines; whatever the scheduling, the sizes of the pipes and how much of its input each program reads, it is never stuck, no process runs for ever, and when it ends no process of the pipeline is left.", "quantifier": "all chains of programs, inputs, schedules, pipe capacities, read sizes and descriptor tables", "why_tests_cant": "ranges over all programs and all interleavings of the processes, the kernel and the event loop", "anchors": ["pieshell/pipeline/pipe.py:Pipe._run", "pieshell/pipeline/base.py:Pipeline.__bytes__", "pieshell/pipeline/base.py:Pipeline.__aiter__", "pieshell/redir.py:Redirects.perform", "pieshell/redir.py:Redirects.close_source_fds", "pieshell/iterio.py:InputHandler", "pieshell/iterio.py:LineInputHandler", "pieshell/pipeline/running.py:RunningPipeline.wait"]}
{"id": "C88", "title": "iterator | a | b gives what the programs compute from the items", "statement": "bytes(iterator | c1 | ... | cn) is what the programs compute, one after the other, from the items of the iterator (None skipped) with a newline after each; list(iterator | cat) gives the items back; whatever the scheduling, and the iteration never comes to a standstill.", "quantifier": "all iterators, also ending with an exception, all chains of programs, schedules, pipe capacities and descriptor tables", "why_tests_cant": "ranges over all items, programs and interleavings of the processes and the event loop", "anchors": ["pieshell/pipeline/function.py:Function._run", "pieshell/iterio.py:OutputHandler", "pieshell/iterio.py:IOHandler", "pieshell/pipeline/pipe.py:Pipe._run", "pieshell/pipeline/base.py:Pipeline.__bytes__"]}
{"id": "C89", "title": "yes | head ends", "statement": "When programs that would go on for ever stand before one that does not read everything, bytes() and iterating give exactly what the last program writes and can always be brought to their end, provided each program exits when a write fails because nobody reads any more; a program that does not exit then keeps the iteration from ending, and one that does makes it end with an exception.", "quantifier": "all chains of programs, also infinite ones, inputs, schedules and pipe capacities", "why_tests_cant": "ranges over infinite programs and all interleavings", "anchors": ["pieshell/pipeline/command.py:Command._run", "pieshell/pipeline/running.py:RunningPipeline.wait", "pieshell/pipeline/running.py:RunningPipeline.__aiter__", "pieshell/pipeline/pipe.py:Pipe._run"]}
{"id": "C90", "title": "Iterating over a pipeline raises iff one of its programs failed", "statement": "bytes() and iterating raise at the end if a program of the pipeline exits with a status other than 0, and do not if all succeed; in particular whether they raise depends on the programs and their input only.", "quantifier": "all chains of programs, inputs, schedules and pipe capacities", "why_tests_cant": "ranges over all programs and all interleavings", "anchors": ["pieshell/pipeline/running.py:RunningPipeline.wait", "pieshell/pipeline/running.py:RunningPipeline.exit_code", "pieshell/pipeline/running.py:RunningPipeline.failed_processes", "pieshell/pipeline/command.py:Command._child"]}
{"id": "C91", "title": "A pipeline of commands and python functions in any order gives what they compute one after the other", "statement": "bytes(c0 | f1 | c2 | ...) is what the items compute one after the other, a function from the lines of what stands before it, each value it yields (None skipped) followed by a newline; list(c | f) with f yielding g(line) is g of the lines; whatever the scheduling. If every item reads all of its input and the functions yield short values, it is never stuck, ends, raises exactly if an item fails, and leaves nobody behind.", "quantifier": "all sequences of programs and functions, inputs, schedules, pipe capacities and descriptor tables", "why_tests_cant": "ranges over all programs, functions and interleavings of processes and handlers in one event loop", "anchors": ["pieshell/pipeline/function.py:Function._run", "pieshell/iterio.py:LineOutputHandler.send_output", "pieshell/iterio.py:LineInputHandler", "pieshell/pipeline/running.py:RunningPipeline.wait", "pieshell/pipeline/pipe.py:Pipe._run"]}
{"id": "C92", "title": "A python function may stop reading before the end of its input", "statement": "list(c | f) ends when f returns before it has read everything c writes, as with head in the place of f: c is told that nobody reads any more.", "quantifier": "all programs, functions, positions in a pipeline, schedules and pipe capacities", "why_tests_cant": "ranges over all programs and interleavings", "anchors": ["pieshell/pipeline/function.py:Function._run", "pieshell/iterio.py:LineOutputHandler.send_output", "pieshell/iterio.py:IOHandler.destroy", "pieshell/pipeline/running.py:RunningPipeline.wait"]}
{"id": "C93", "title": "The printed form of a process can be typed in to run the same command", "statement": "Processes found through the process tree are printed as a pieshell expression followed by ' as pid'; typing that expression runs a program with the same words.", "quantifier": "all command lines and environments", "why_tests_cant": "ranges over all words, their order and python's reading of the line", "anchors": ["pieshell/ps.py:cmdline2pieshell", "pieshell/ps.py:PstreeProcess.__repr__", "pieshell/pipeline/command.py:BaseCommand.__neg__", "pieshell/pipeline/command.py:BaseCommand._arg_list"]}
{"id": "C94", "title": "The keyword arguments offered for a command are the long options its help lists", "statement": "inspect.signature, help() and completion offer, once each, exactly the long options the output of command --help lists, and using one as a keyword argument puts that option on the command line.", "quantifier": "all help texts, commands and values", "why_tests_cant": "ranges over all texts", "anchors": ["pieshell/pipeline/command.py:Command.__signature__", "pieshell/pipeline/command.py:BaseCommand._arg_list"]}
{"id": "C95", "title": "A command with pipelines as arguments computes what the programs compute from each other's output", "statement": "bytes(diff(a | b, c) | d), and iterating over it, gives what the programs compute if each reads what the pipelines in its arguments and the command before it write, whatever the scheduling and the capacity of pipes; it is never stuck, ends, and then no process is left; it raises if a program fails, and does not if all succeed and read their input.", "quantifier": "all pipelines of commands with pipelines as arguments, nested to any depth, programs, inputs, schedules, pipe capacities and descriptor tables", "why_tests_cant": "ranges over all nestings, programs and interleavings", "anchors": ["pieshell/pipeline/command.py:Command._handle_arg_pipes", "pieshell/pipeline/command.py:Command._run", "pieshell/redir.py:Redirects.make_pipes", "pieshell/pipeline/running.py:RunningPipeline.wait", "pieshell/iterio.py:InputHandler"]}
{"id": "C96", "title": "Leaving a loop over a pipeline early stops the pipeline", "statement": "When the loop in for line in (a | b): ... break is left, the processes of the pipeline get to know that nobody reads any more and come to their end.", "quantifier": "all chains of programs, inputs, numbers of lines read before the loop is left, schedules and pipe capacities", "why_tests_cant": "ranges over all programs and interleavings", "anchors": ["pieshell/pipeline/running.py:RunningPipeline.__aiter__", "pieshell/iterio.py:LineInputHandler", "pieshell/iterio.py:IOHandler.destroy", "pieshell/pipeline/base.py:Pipeline.__iter__", "pieshell/utils/asyncutils.py:asyncitertoiter"]}
{"id": "C97", "title": "Each iteration over a running pipeline gets that pipeline's output and no other's", "statement": "However many pipelines run and are iterated over at once, and although descriptor numbers are used again, an iteration over a running pipeline (RunningPipeline.__aiter__, iterbytes) gets exactly what that pipeline writes and comes to its end.", "quantifier": "all histories of runs, iterations, writes, reads and reuse of descriptor numbers", "why_tests_cant": "ranges over all histories of all pipelines sharing one event loop", "anchors": ["pieshell/pipeline/running.py:RunningPipeline.__aiter__", "pieshell/pipeline/running.py:RunningPipeline.iterbytes", "pieshell/iterio.py:IOHandler.enable", "pieshell/iterio.py:IOHandler.destroy", "pieshell/iterio.py:InputHandler.handle_event", "pieshell/iterio.py:LineInputHandler.handle_event"]}
{"id": "C98", "title": "A python function in a pipeline outputs the values it produces, whatever kind of function it is", "statement": "bytes(c | f) is the values f produces from its input, one per line, when f is a generator, an asynchronous generator, a coroutine, or returns a list, a string, bytes or any other object.", "quantifier": "all functions of all kinds, what they read and yield and when they raise, programs, inputs, schedules and pipe capacities", "why_tests_cant": "ranges over all functions, kinds of results and interleavings", "anchors": ["pieshell/pipeline/function.py:Function._run", "pieshell/utils/asyncutils.py:itertoasync", "pieshell/utils/asyncutils.py:asyncmap", "pieshell/iterio.py:OutputHandler.get_iter", "pieshell/iterio.py:LineInputHandler"]}
{"id": "C99", "title": "c | map(f) outputs f of each line", "statement": "bytes(c | map(f)), and with from_json = map(json.loads) and to_json = map(json.dumps) in the place of map(f), is f of the lines c writes, one per line, up to the first line f raises for.", "quantifier": "all functions, programs, inputs and schedules", "why_tests_cant": "ranges over all functions and inputs", "anchors": ["pieshell/utils/jsonutils.py:map", "pieshell/utils/jsonutils.py:from_json", "pieshell/utils/jsonutils.py:to_json", "pieshell/pipeline/function.py:Function._run"]}
{"id": "C100", "title": "A pipeline redirected to a file leaves in it what its programs compute", "statement": "After running (c0 | c1 | ... | cn) with its output redirected to a file, and its input taken from one or from the shell, and wait(), the file contains exactly what the programs compute one after the other from the input; no other file is changed and nothing is printed; at every moment before, it contains a prefix of that.", "quantifier": "all chains of programs, also infinite ones before one that does not read everything, inputs, old contents, schedules and pipe capacities", "why_tests_cant": "ranges over all programs, file contents and interleavings", "anchors": ["pieshell/pipeline/base.py:Pipeline._coerce", "pieshell/redir.py:Redirect.open", "pieshell/redir.py:Redirect.perform", "pieshell/redir.py:Redirects.perform", "pieshell/pipeline/command.py:Command._run", "pieshell/pipeline/running.py:RunningPipeline.wait"]}
{"id": "C101", "title": "A pipeline run in the shell prints what its programs compute, and wait() ends with its verdict", "statement": "Running (c0 | c1 | ... | cn) without reading its output in python writes to the shell's standard output exactly what the programs compute, in order; wait() always comes to its end, not before every process has gone, raises PipelineFailed if a program fails and returns if none does and all read their input.", "quantifier": "all chains of programs, inputs, redirections of the ends, schedules and pipe capacities", "why_tests_cant": "ranges over all programs and interleavings", "anchors": ["pieshell/pipeline/base.py:Pipeline.run", "pieshell/pipeline/pipe.py:Pipe._run", "pieshell/pipeline/command.py:Command._run", "pieshell/pipeline/running.py:RunningPipeline.wait", "pieshell/pipeline/running.py:RunningPipeline.failed_processes"]}
{"id": "C102", "title": "The text of a PipelineError tells which items failed and what they wrote to standard error", "statement": "str() of the exception raised for a failed pipeline gives the kind of error, the pipeline, and for every failed item, in order, the command with everything captured of its standard error, or the function with its traceback; items that succeeded are not mentioned.", "quantifier": "all pipelines, captured contents, ways of failing, and moments at which wait() raises", "why_tests_cant": "ranges over all items, contents and schedules of the event loop", "anchors": ["pieshell/pipeline/running.py:PipelineError.__str__", "pieshell/pipeline/running.py:RunningProcess.__repr__", "pieshell/pipeline/running.py:RunningFunction.__repr__", "pieshell/pipeline/running.py:RunningItem.handle_pipeline_finish", "pieshell/pipeline/builtins.py:RunnningFg"]}
{"id": "C103", "title": "Passing data through a file gives what a pipe gives", "statement": "If (a > 'f') is run and waited for and then (b < 'f') is run and waited for, the result (the file b is redirected to, and all other files than 'f'; or what is shown) is that of (a | b) with the same input and output. Here a and b are any pipelines of programs.", "quantifier": "every two pipelines of programs, every content of the files, all ways of redirecting (default flags, O_TRUNC, O_APPEND), every pipe capacity and every schedule of the three jobs", "why_tests_cant": "It compares three concurrent executions under all schedules, for all programs and all contents the files may have had.", "anchors": ["pieshell/pipeline/base.py:PipelineSuper.__gt__", "pieshell/pipeline/base.py:PipelineSuper.__lt__", "pieshell/redir.py:Redirect.__init__", "pieshell/redir.py:Redirect.open", "pieshell/pipeline/running.py:RunningPipeline.wait"]}
{"id": "C104", "title": "Completing cd offers the directories one can go to", "statement": "The names offered for completing env.cd.a.b are those of the subdirectories of the directory env.cd.a.b leads to, and PARENT and ROOT; running the command with one of them chosen takes the environment to that directory (its parent, the root).", "quantifier": "every history of environments, directories and cd's, every tree of files, every list of words a.b including ~user, every name", "why_tests_cant": "It relates listing, joining, expanding and normalising paths for all directory trees, all names and all histories of the working directory.", "anchors": ["pieshell/pipeline/builtins.py:CdBuiltin.__dir__", "pieshell/pipeline/builtins.py:CdBuiltin._path", "pieshell/pipeline/builtins.py:CdBuiltin._run", "pieshell/pipeline/command.py:BaseCommand.__getattr__", "pieshell/environ.py:Environment._expand_path", "pieshell/environ.py:Environment._cd"]}
{"id": "C105", "title": "The process tree shows every child process and every login once", "statement": "INIT, CURRENT and every process reached from them offer as attributes (dir(), tab completion) their child processes: following the offered names every child is reached at exactly one place, and nothing else. USERS does the same for logins. GROUP and SESS of a process are those of that process.", "quantifier": "every set of child processes and logins, whatever psutil answers for each (a value, access denied, gone), all program names and command lines, every slugify that leaves pid_N alone", "why_tests_cant": "The grouping recurses over four to six keys of every process with fallbacks; the claim is about all sets of processes, including those that exit while they are asked.", "anchors": ["pieshell/ps.py:PstreeProcess._getkey", "pieshell/ps.py:PstreeProcess._children", "pieshell/ps.py:PstreeProcess.__getattr__", "pieshell/ps.py:PstreeProcess.GROUP", "pieshell/ps.py:PstreeLogin", "pieshell/ps.py:PstreeLogins", "pieshell/tree.py:TreeGroup"]}
{"id": "C106", "title": "CTRL-C cancels the pipeline in the foreground", "statement": "CTRL-C while the shell waits for a pipeline raises PipelineInterrupted naming that pipeline; after it no pipeline is in the foreground, nothing waits for the pipeline any more, other pipelines are waited for and suspended as usual, and the interrupted pipeline can be waited for again.", "quantifier": "every history of starts, waits, child events and interrupts, every instant at which python handles the SIGINT", "why_tests_cant": "depends on the instant of the interrupt and on what the event loop does long after it", "anchors": ["pieshell/pipeline/running.py:RunningPipeline.wait", "pieshell/pipeline/running.py:StopSignalHandler.handle_event", "pieshell/pipeline/base.py:Pipeline.run_interactive"]}
{"id": "C107", "title": "CTRL-Z suspends the pipeline that was in the foreground when it was hit", "statement": "A CTRL-Z suspends the pipeline the shell waits for when it is hit, and does nothing when the shell is at its prompt or computing.", "quantifier": "every history of starts, waits, child events and keys, every delay between the signal and the event loop reading it", "why_tests_cant": "the signal is taken at an arbitrary later time, in another call", "anchors": ["pieshell/pipeline/running.py:StopSignalHandler.handle_event", "pieshell/pipeline/running.py:RunningPipeline.wait", "pieshell/signalio/manager_signalfd.py:SignalManager"]}
{"id": "C108", "title": "A program starts with the signal settings pieshell was started with", "statement": "A program run from pieshell, or from any number of pieshells started from each other, starts with the same signals blocked, ignored and at their default as if it had been started by what started pieshell.", "quantifier": "all initial signal settings, all signals, any number of nested pieshells with either signal manager", "why_tests_cant": "settings are inherited through every fork and exec; a test sees one initial setting", "anchors": ["pieshell/signalio/manager_signalfd.py:SignalManager.__init__", "pieshell/signalio/manager_asyncio.py:SignalManager.__init__", "pieshell/pipeline/command.py:Command._child", "pieshell/pipeline/command.py:Command._run"]}
{"id": "C109", "title": "The prompt comes back when the foreground pipeline has been stopped", "statement": "When every process of the pipeline the shell waits for has stopped (CTRL-Z, kill -STOP), the call of wait() ends and the shell can be used.", "quantifier": "every history of child events, signals and event loop steps, both signal managers", "why_tests_cant": "a missing reaction: it must be shown that no schedule whatever ends the wait", "anchors": ["pieshell/pipeline/running.py:RunningPipeline.wait", "pieshell/signalio/__init__.py:ProcessSignalHandler.handle_event", "pieshell/signalio/manager_asyncio.py:SignalManager.handle_event"]}
{"id": "C110", "title": "A subshell in a pipeline computes what its pipeline computes in its place", "statement": "bytes(a | subshell(b | c) | d), and iterating over it, gives what a | b | c | d gives: the programs read what the one before them writes, the iteration ends, with an exception if and only if that of a | b | c | d would, and no process is left.", "quantifier": "all pipelines of commands and subshells of pipelines of commands, all programs, inputs, pipe capacities and schedules", "why_tests_cant": "the processes of the pipeline and of the subshells run concurrently and hold each other's pipes open; one schedule shows little", "anchors": ["pieshell/pipeline/builtins.py:SubShell._child", "pieshell/pipeline/builtins.py:SubShell._run", "pieshell/pipeline/running.py:RunningPipeline.wait", "pieshell/pipeline/base.py:Pipeline.run_interactive"]}
{"id": "C111", "title": "Pipelines running at the same time do not affect each other", "statement": "However many pipelines a shell has started and not yet read to the end, and however their processes and the tasks reading them are scheduled, each of them gives what it would give alone: the same bytes or lines, the same end (with an exception iff one of its own programs fails), and none can be made to wait for ever by another.  (They do share the shell's standard input, which is taken to be at its end.)", "quantifier": "all numbers of pipelines, all pipelines of commands, all programs, all times of starting them, pipe capacities and schedules", "why_tests_cant": "a pipe end of one pipeline that survives in a process of another or in the shell only matters for some orders of starting, exiting and reading", "anchors": ["pieshell/pipeline/base.py:Pipeline.run", "pieshell/pipeline/command.py:Command._child", "pieshell/redir.py:Redirects.perform", "pieshell/redir.py:Redirects.close_source_fds", "pieshell/iterio.py:IOHandler.destroy"]}
{"id": "C112", "title": "A pipeline can be used wherever Python code runs", "statement": "bytes(cmd), str(cmd), for line in cmd, list(cmd) and +cmd give what the pipeline computes wherever they are used: at the prompt, in a script, in a function that is part of a pipeline, or in a coroutine; a use that is refused leaves no processes and open descriptors behind. (False: where the event loop runs the code - generators and coroutines in pipelines, functions started by + or await - the first item is a RuntimeError, after the processes have been started; their output descriptor is never closed and, if they write more than fits, they never end. Only + starts nothing, and await and async for work.)", "quantifier": "all pipelines of programs, all outputs, all ways of using them, all (nested) places of the using code, all schedules", "why_tests_cant": "tests call str(cmd) at top level, where no event loop runs; what is left behind shows only with enough output and time", "anchors": ["pieshell/pipeline/base.py: Pipeline.run_interactive, __pos__, __aiter__, __iter__, __str__, __bytes__", "pieshell/utils/asyncutils.py: asyncitertoiter", "pieshell/pipeline/function.py: Function._run", "pieshell/iterio.py: InputHandler, LineInputHandler, OutputHandler.send_output"]}
{"id": "C113", "title": "The programs of a pipeline may run while it is still being started", "statement": "What bytes(cmd), str(cmd) and iterating over a pipeline of programs give, that they come to an end, and whether they raise, does not depend on how far the programs get while pieshell is still starting the pipeline, nor on how long pieshell and the processes it is just starting keep the ends of the pipes that they inherited: data written meanwhile is not lost, an end held by someone else only delays an end of file or a failing write, and no such delay makes anyone wait for ever.", "quantifier": "all pipelines of programs, all outputs and inputs, all sets of pipe ends held by anyone and all times at which each is given up, pipe capacities, schedules", "why_tests_cant": "which ends are open in which process between two forks depends on timing; a test sees one of the orders", "anchors": ["pieshell/pipeline/pipe.py: Pipe._run", "pieshell/pipeline/command.py: Command._run, _child", "pieshell/redir.py: Redirects.perform, close_source_fds", "pieshell/pipeline/base.py: Pipeline.run, __iter__, __bytes__"]}
{"id": "C114", "title": "What is run in an environment gets the environment's default redirects", "statement": "Redirects registered on an environment (its _redirects, `env | file`, `file | env`) are the defaults of every pipeline run in it: the first command's stdin, the last one's stdout and every stderr are the last thing registered for that descriptor, or the shell's own when nothing was, unless the pipeline itself is redirected; pipes between the commands and the pipe of a caller reading the output are never affected. Registering through one environment does not change what another one does.", "quantifier": "all sessions making, deriving and changing environments, all pipelines without builtins, all redirects of 0, 1 and 2 to files that can be opened or temporary files", "why_tests_cant": "the sharing of Redirects objects between environments is invisible until a later statement changes one; tests use one environment", "anchors": ["pieshell/environ.py: Environment.__init__, __call__, __or__, __ror__", "pieshell/redir.py: Redirects.register, redirect, _coerce", "pieshell/pipeline/base.py: Pipeline.run, __or__"]}
{"id": "C115", "title": "A log file set for an environment gets the output of everything run in it, in order", "statement": "If the standard output of environments is set to files, then after any session of statements that make, derive and change environments and of pipelines run in them and waited for, each file contains its old content followed by exactly the outputs of the pipelines run in environments that were set to it at that time, in the order they were run; what is shown on the terminal are the outputs of the others.", "quantifier": "all sessions, programs, inputs, file contents, schedules and pipe capacities", "why_tests_cant": "depends on the whole history of the session and on how the processes of every pipeline were scheduled", "anchors": ["pieshell/environ.py: Environment.__init__, __call__", "pieshell/redir.py: Redirect.open, Redirects.register", "pieshell/pipeline/base.py: Pipeline.run", "pieshell/pipeline/running.py: RunningPipeline.wait"]}
{"id": "C116", "title": "Pipelines running at the same time can log to one file", "statement": "Start pipelines of programs with run() without waiting for the earlier ones, each with its output appended to a file (O_APPEND) or not redirected, its input taken from the shell or a file none of them writes. However they are scheduled and whenever each is started: every log file holds its old content followed by an interleaving of the outputs of the pipelines logging there, in each one's own order, nothing lost or overwritten, and complete for each pipeline that is done; a pipeline without redirection shows its own output; no other file changes; wait() on one pipeline ends only when that pipeline's processes have gone and raises or returns by what its own programs do; from everywhere all of them can be waited for, and if the programs come to an end their processes make a bounded number of steps. (False with the default flags of cmd > \"p\": they overwrite each other.)", "quantifier": "all numbers of pipelines of any length, programs, start times, schedules of all their processes and of wait(), pipe capacities, initial files", "why_tests_cant": "which process of which pipeline writes next is the kernel's choice: the number of interleavings is unbounded, and a lost update shows in few of them", "anchors": ["pieshell/pipeline/base.py: Pipeline.run", "pieshell/pipeline/running.py: RunningPipeline.wait", "pieshell/redir.py: Redirect.open, Redirects.perform"]}
{"id": "C117", "title": "The printed form of a running command tells what happened to its process", "statement": "repr() of the commands of a running pipeline shows, for each of its processes, 'COMMAND as PID', followed by the exit code (and output files) once the process has exited, or the signal that stopped or killed it, or nothing more while nothing has happened to it or it has been continued. Two processes shown alike have the same id and the same happened to them. (False after a process was continued: it is shown as status=3, signal=127, as one that dumped core.)", "quantifier": "all histories of child events, all reachable states of pieshell, all process ids, exit codes and signals", "why_tests_cant": "which events a process has had when it is printed depends on the schedule; tests print processes that have just been started or have exited", "anchors": ["pieshell/pipeline/running.py: RunningProcess._repr", "pieshell/signalio/signalutils.py: siginfo_to_names, get_sigchlds", "pieshell/signalio/__init__.py: ProcessSignalHandler.handle_event", "pieshell/pipeline/command.py: BaseCommand._repr"]}
{"id": "C118", "title": "The printed form of redirects tells them apart", "statement": "Printing redirects (repr of a Redirects, the text after \"with\" in the printed form of a command, the log) lists each redirect once, in the order of the descriptors, whatever the order in which they were added. cmd > \"p\" shows as 1 --> p, cmd < \"p\" as 0 <-- p; flags other than the default ones are listed by name, exactly those that are set. If two sets of redirects print alike, they redirect the same descriptors to the same files, descriptors, PIPE, TMP or STRING, with the same mode, the same pipe, borrowed or not, and the same named flags. [holds for file names without blanks, commas and parentheses that are not numbers; a file named 3 looks like descriptor 3, a file name may look like several redirects, and O_SYNC looks like O_DSYNC]", "quantifier": "all sets of redirects, all file names, flags, modes, pipes, all tables of flag names", "why_tests_cant": "that no two different redirects ever print alike is about all pairs of them; tests compare the text of a few with a literal", "anchors": ["pieshell/redir.py: flags_to_string, Redirect.__repr__, Redirects.__repr__, SpecialRedirect.__repr__", "pieshell/pipeline/redirect.py: CmdRedirect._repr"]}
{"id": "C119", "title": "c | filter(f) outputs the lines for which f holds", "statement": "filter(f) of pieshell.utils.jsonutils can be used in a pipeline: c | filter(f) outputs the lines of c's output for which f returns true, unchanged and in order, up to the first line for which f raises. [does not hold: calling filter(f) raises NameError whatever f is, and the loop inside could not read its input]", "quantifier": "all functions f, all programs c and inputs, all schedules of the processes and the event loop", "why_tests_cant": "what reaches the output depends on how reads and writes interleave; the repository has no test that calls filter", "anchors": ["pieshell/utils/jsonutils.py: filter", "pieshell/pipeline/function.py: Function._run", "pieshell/utils/asyncutils.py: asyncmap, itertoasync"]}
