# Formal model of dataplicity-agent in Rocq (Coq 8.16.1)

## Method

* The code in `/repo/dataplicity` is transcribed by hand, function by function, into total Gallina functions and small-step
  transition systems (`Model_*.v`). Every definition cites the Python file and lines it models, and states simplifications.
* Independent specifications (`Spec_*.v`) say in plain relational terms what a property means, without using model helpers.
* Proofs are in `Proof_*.v`; the property theorems are restated in `Prop_*.v`, each closed by `exact`, with
  `Print Assumptions` and a non-vacuity `Example` beside it.
* Python exceptions are values (`res A := Ok a | Raise e | Hang`); logging is modelled only where it is set up (C138) and
  in the `repr` of packets, which is what the log shows; it has no effect on the other properties.
* Threads are modelled by interleaving of atomic steps; a lock region is modelled with explicit acquire/release steps where
  the property is about the schedule.
* If a property is false of the code as written, the theorem is named `..._refuted` and exhibits a witness. The strongest
  true part is proved next to it (`..._partial`), and the full statement stays in `properties.jsonl`.

Python semantics assumed: CPython 3 (the Python 2 branches of `compat.py` are not modelled).

## Plan per property

| id | what is modelled | how it is proved |
|---|---|---|
| C01-C03 | `bencode.encode/_decode` over a recursive value type, UTF-8 codec, Python `int()` parsing | induction over values; streaming lemma `decode (encode v ++ t)` |
| C04 | same, with bool/None/float/surrogate text/unhashable keys in the universe | induction, iff with an inductive `Encodable` |
| C05 | `_decode` on fuel; `Hang` = out of fuel for every fuel | refuted by witness; exact characterisation of the hanging inputs by a grammar |
| C06 | exceptions as values | refuted by witness; closed set of possible exceptions |
| C07, C08 | same | induction over the value and the cut point; size measure on the parse |
| C09-C12 | registry table, `init_params`, `create`, `from_bytes`, `encode` | round trip from C01; iff characterisation of construction; finite table facts by computation |
| C13-C15 | dispatcher table, `on_packet`, `on_binary`, `run` loop | case analysis; induction over event sequences |
| C16 | `__repr__` with Python `repr` of bytes, ints, lists and dicts | non-interference by rewriting |
| C17-C20 | `Channel` as state + operations | invariants by induction over operation sequences |
| C21-C25 | `WSClient` as state machine over a heap of channel objects | invariants and trace properties by induction over events |
| C26 | manager `set_identity` + client `set_m2m_identity` | state machine with API outcomes as input |
| C27-C28 | limiter with explicit lock, non-atomic read-modify-write, launcher and service threads | invariant over all reachable states of the interleaving |
| C29 | launch functions of the four service kinds | case analysis over limiter outcome |
| C30-C31 | file/command service loops with oracle schedules | induction over the schedule; Linux poll semantics stated as a spec for the completion part (refuted) |
| C32 | echo callback inside the WSClient model | trace induction |
| C33 | two-thread transition system of `Connection` | invariant; send failure part refuted |
| C34, C35 | receive loop with shared close event | refuted by witness schedules; positive part by induction |
| C36 | service tables | invariants over registration histories |
| C37, C38 | `PidWaitThread.run`, `RemoteProcess.close`, spawn race | induction over observations; race refuted |
| C39 | `write_master` loop | induction over the partial writes |
| C40 | `Terminal` | state machine |
| C41 | `on_instruction` | case analysis over decoded dictionaries |
| C42-C52 | `RemoteDirectory` over a file system model with fault schedule, `posixpath` functions on text | path algebra; state invariants; refutations by witness |
| C53-C56, C133 | `scan_directory` on an arbitrary finite directory graph with inodes | measure on unvisited inodes; invariants; tree recursion equality |
| C57-C59 | scanner lock/thread interleaving, file write in steps | reachable-state invariants; refutations |
| C60-C65 | JSON values, `JSONRPC`, `Batch` | case analysis, permutation lemma |
| C66-C70 | `Client` as state machine with server outcomes as input | induction over histories |
| C71-C78 | the small tools, the command line | direct proofs against declarative specs |
| C79 | `WSClient.run` to its end | refuted by witness |
| C80, C81 | `Interceptor._copy`, the terminal's channel in the transition system of C37 | invariants; refuted parts by witness schedules |
| C82, C84 | write requests over the file system model | frame lemmas: what each request can change; refutations |
| C83 | `set_identity` with the API as input | induction over histories of calls |
| C85, C86 | window size: two threads, parsed control data | invariant over interleavings; refutation by witness schedule |
| C87, C88 | `JSONRPC.notify`, `Batch.check` | case analysis; induction over the ids |
| C89, C90 | `get_tag_list`, `tag_poll`, `poll` | case analysis; induction over histories of polls |
| C91 | sending through channels as test and send steps, next to `on_notify_close` in steps | refuted by a schedule; invariants over all interleavings |
| C92 | `Channel.read` and `on_data` with event, lock and deque as separate steps | invariants over all interleavings; refutations by schedules |
| C93 | the WSClient model of C21 | refuted by a session; preservation through all handlers and callbacks |
| C94 | construction of the client from options and files | case analysis against relations for line ends and trimming |
| C95 | `on_instruction` at each moment of the construction | refuted by two moments; exact condition for each instruction |
| C96, C97 | `sync` of several threads, in steps between which others run | invariant over all interleavings; refuted by a schedule no silent continuation gets out of |
| C98-C102 | `WSClient`, `RemoteDirectory` and `M2MManager.on_instruction` put together: the callee of the client model is the remote directory model | simulation: the calls in the history against the messages; C44 to C47 lifted to sessions by induction |
| C103-C106 | the functions of `RemoteDirectory` and `DirectoryScanner` that use the file system, over one with symbolic links and with other programs running between system calls | path resolution against an inductive relation; confinement by induction over it; refuted by links and by a race |
| C107 | `new_call_id` in its three steps, any number of threads | invariant over all interleavings; refuted by two schedules |
| C108 | the WSClient model of C21 | open channels are registered under their numbers, an invariant; then induction over the inputs |
| C109 | the same with the service models of C30 and C31 | composition of C108 with C30 and C31 |
| C110-C114 | one machine of the client and a service on one of its channels; the service is a port forward (the models of C33 and C35, with the receive loop cut into its single steps) or a terminal (the model of C37) | what a step of the client tells the service, by a relation kept by all handlers and callbacks; then simulation, and C33, C37 to C39 and C80 lifted to sessions; refuted by sessions |
| C115-C118 | what carrying out an instruction does with the client, as the callee of the instruction in `Model_Client.v`; an echo on the machine of C110; two counters | symbolic execution of the step from any reachable state; C110's simulation with a service without close callback; refuted by dropped connections |
| C119-C122 | the forked child up to exec, with the ids of Linux; the model of C37 | case analysis; invariants over the steps of C37's machine; refuted by every run of a kind |
| C123, C124 | the main thread statement by statement, with an exception or an interrupt possible at each | a property of traces kept by each control structure (`try`, `finally`, sequence), then induction over the polls; refuted by two environments, for any number of polls |
| C125 | the threads with their daemon flags | invariant over all starts and ends |
| C126, C127, C136 | all threads of the agent reduced to locks, exceptions, loops and thread starts; small-step, any interleaving | the programs keep an order of the locks and loop only outside of them (a typing, preserved by all steps); the owners counted from the stacks; then induction over the order, and over the work left inside a lock; C136 refuted by every execution that goes on from a state of a kind |
| C128, C129 | the decoder with a number of calls left and a limit of digits; the client of C13 with it | simulation with the decoder without limits, by induction over the fuel; then over the session |
| C130, C131 | the client of C13 | sums of queue sizes against the trace (invariant), deliveries of a step (C21), weight of decoded data (C08); a relation every action but one keeps |
| C132 | the services on the client of C110, the instructions of C115 | a property of the channel object kept by every action of the client; refuted for every session in which two instructions name one channel |
| C134 | the model of C110 | invariant: only an established connection takes data; C110 |
| C135 | any number of terminals and one table of descriptors | invariant over interleavings; refuted from every reachable state of a kind |
| C137 | the model of C66 | a relation between two runs, kept by every step of a batch and every poll |
| C138 | `_init_logging` with the parts of logging it uses | case analysis over the levels |
| C139 | `_make_arg_parser` with the parts of argparse it uses | induction over the words; a grammar of ways of writing as specification, both directions |
| C140 | the models of C30, C31, C110 and C112, and the encoder | induction over the digits of a number; case analysis of the steps that write |
| C141 | the models of C66 and C75 together | invariant of the history: the cache holds what the first answer was, and so does every request |
| C142 | the model of C141 with `tags.py` and `disk_tools.py` | invariant of the history; C71, C72 and C141 for what a request says |
| C143 | the model of C30 and C31 | follows from C30 and C31 where they apply; computation where they do not |

## Layout

| directory or file | contents |
|---|---|
| `rocq/theories/Py.v` | the Python notions all models share: exceptions as values, bytes, text, UTF-8, dictionaries, `int()` |
| `rocq/theories/Model_X.v` | the code, function by function, with citations |
| `rocq/theories/Spec_X.v` | what the properties mean; may use the data types of the model, not its functions |
| `rocq/theories/Proof_X*.v` | lemmas and proofs |
| `rocq/theories/Prop_X.v` | the theorems the manifest names, `Print Assumptions`, one `Cxx_case` example each |
| `properties.jsonl`, `MANIFEST.json` | the claims, and which theorems carry them (`tools/mkmanifest.py` writes the manifest from `Prop_*.v` and `tools/notes.json`) |
| `seeded/LOG.jsonl` | mutation tests: the edit of the model, the theorems that failed, the theorems tightened because none did |
| `tools/mkassumptions.py` | writes the list at the end of this file |

A theorem `Cxx_name` proves the claim or one independent part of it. `Cxx_name_partial` proves it under a hypothesis the claim
does not have; `Cxx_name_refuted` shows by a witness that the hypothesis cannot be dropped. A claim counts as proved in the
manifest only if none of its theorems is partial or refuted.

## What is modelled, file by file

| code in `/repo/dataplicity` | model | left out or simplified |
|---|---|---|
| `m2m/bencode.py` | `Model_Bencode.v`: `encode`, `_decode`, `decode` | recursion limit and `int()` digit limit (only hit by messages of thousands of levels or digits); the text of exceptions |
| `m2m/packetbase.py`, `m2m/packets.py` | `Model_Packets.v`: metaclass registry, all 46 packet classes, `init_params`, `create`, `from_bytes`, `encode`, `__repr__` | `validate` (no class overrides it); Python 2 branches |
| `m2m/dispatcher.py`, `m2m/wsclient.py` | `Model_Client.v`: channels, registry of channels, commands and callbacks, packet handlers, the event loop, close | lomond; `ChannelFile`; `last_packet_time`; `BaseException`s. Callbacks and the websocket are an arbitrary environment that may call back into the client. `disable`, `set_packet_class` have no caller |
| `m2m/wsclient.py`, `Channel` used by several threads | `Model_Threads.v`: the test of `is_closed` and the sending as separate steps; `read`/`on_data` with event and lock | one channel at a time for reading; what is sent is not encoded here |
| `limiter.py`, and how services are launched under it | `Model_Limiter.v`: explicit lock, read and write of the counter as separate steps, any number of threads | `__repr__`, the logging |
| `m2m/fileservice.py`, `m2m/commandservice.py`, `m2m/echoservice.py` | `Model_Services.v` (echo: in `Model_Client.v` and `Model_Opening.v`), `Model_Opening.v` (constructors) | which bytes a process writes and when is an oracle; `poll` as Linux has it |
| `portforward.py` | `Model_Forward.v` (`Connection`), `Model_Relay.v` (the same on a channel of the client, in finer steps), `Model_Manager.v` (service table) | socket calls are oracle steps; addresses are not resolved |
| `m2mmanager.py` | `Model_Manager.v`: instructions, service table, terminals' bookkeeping, identity; `Model_Opening.v`: what carrying out an instruction does with the channel, the two limiters | `on_sync` (never called), `close`, `restart_agent`, `reboot`'s own process; see `Model_Process.v` for what a terminal does |
| `m2m/remoteprocess.py`, `m2m/proxy.py` | `Model_Process.v` (life, input, output), `Model_Relay.v` (the same on a channel of the client), `Model_Window.v` (window size), `Model_Child.v` (the child up to exec), `Model_Handle.v` (descriptor numbers) | capabilities, tty modes, the context manager, `__repr__`; the child process is an arbitrary environment |
| `remote_directory.py` | `Model_Remote.v`, over the file system of `Model_Path.v` | permissions; errors of system calls come from an arbitrary fault schedule; `exists` and `isdir` never fail; requests are served one by one, as the m2m thread does; other programs change files only between requests |
| `remote_directory.py` (opening, storing), `directory_scanner.py` (`write_scan`), with links | `Model_Links.v` | permissions; hard links; other programs run before any system call except `exists` and `isdir`; where the positive theorems say `unbothered`, not at all |
| `scan_directory.py`, `directory_scanner.py` | `Model_Scan.v` | the directory graph does not change during a scan (errors are part of the graph); the JSON text of the result |
| `jsonrpc.py` | `Model_Rpc.v`; `new_call_id` of several threads: `Model_Ids.v` | JSON text (an answer is a parsed value, or not JSON, or unreachable, or never); `json.dumps` never fails on what the agent sends |
| `client.py`, start and syncs of several threads | `Model_Start.v` (`__init__`, `_init`, `_read`, with `M2MManager.init`, `PortForwardManager.init`, `make_client`), `Model_Sync.v` (`sync`, `_sync`, `_check_meta` in steps) | the locale's encoding is UTF-8; failures of lomond's constructor and of `Thread.start` are inputs; what a sync sends is in `Model_Agent.v` |
| client, remote directory and manager together | `Model_System.v` | a request for a file is handled before anything else happens to the client; other programs and failing system calls are inputs; what the scan and the instructions do with the client is arbitrary |
| `client.py` | `Model_Agent.v` (polls, metadata, tags, disk), `Model_App.v` (`run_forever`), `Model_Manager.v` (`set_m2m_identity`) | time in whole seconds; `make_sync_id` is a parameter; a sync asked for by an instruction waits for the lock, so polls and syncs are taken one after another |
| `tags.py`, `disk_tools.py`, `iptool.py`, `rpi.py`, `device_meta.py`, `constants.py`, `clockcheck.py` | `Model_Tools.v`, `Model_Meta.v` (the cache with the syncs that read it) | `get_os_version`, `get_uname` (values of the host); floats: any monotone rounding (disk), exact rationals (clock); the ioctl's buffer is given as bytes |
| `app.py`, `subcommands/` | `Model_App.v`, `Model_Logging.v` (`_init_logging` and the logging it sets up), `Model_Cmdline.v` (`_make_arg_parser` with argparse of CPython 3.11.10 as far as this parser uses it) | printed texts and failures while argparse prints them, `Client()` raising or not is an input; `Model_App.v` takes the outcome of argparse as an input |
| main thread of `client.py`, `jsonrpc.py` and `app.py` as control flow | `Model_Shutdown.v`: which statements come after which, if any of them raises or is interrupted; the threads and their daemon flags | values: every test has an arbitrary outcome; interrupts come between the statements that are named; `SIGTERM`; C extensions |
| locks and threads of all modules | `Model_Locks.v`: `with`, `try`, `finally`, loops and `Thread.start` of all code reachable from `main`, by hand; one thread may be inside a lock several times if it is an RLock | everything else takes any number of steps, also without end, and then returns or raises, whatever the values: conditions, sockets, files, processes, `Thread.join`, the locks inside lomond and logging |
| limits of CPython in `bencode.py` | `Model_Depth.v`: `_decode` with nested calls and digits counted | limits in the encoder (the packets the client sends are flat), in handlers and in the `repr` of log messages; memory |
| `compat.py`, `_version.py`, `__main__.py`, `subcommand.py` | not modelled | Python 2 support and constants only |

What no model here can express: real time, memory, the correctness of CPython, of the `lomond` websocket library, of the OS;
the JSON text syntax (responses enter as parsed values or as "not JSON"). `SystemExit` and `KeyboardInterrupt` are modelled
only in `Model_App.v` and `Model_Shutdown.v`.

## Faults of the code that the proofs brought up

Each is a `_refuted` theorem, or a hypothesis of a `_partial` one.

* **Decoder.** An unterminated string size makes `_decode` loop for ever, and with it the receive thread (C05, C12, C14);
  other malformed input raises ValueError, TypeError, OverflowError or IndexError (C06, C12); a byte string that starts with a
  type byte is dispatched like a packet (C15).
* **Client.** An empty data message makes a channel truthy with nothing to read (C19); `hard_close_channels` stops half way if
  a callback opens a channel (C20); `WSClient.run` calls `self.on_close`, which does not exist (C79);
  a packet can be sent with a number that by then belongs to another channel (C91); with two readers, or after an empty
  message, a blocking read returns nothing (C92); data that arrives before a service has installed its callback is never
  given to it (C93). After a drop the closed channel objects stay registered (C22): a terminal opened on such a number runs
  without input, output or signals and keeps its slot (C115), and a refusal on it is not heard (C116). Command callbacks
  stay registered after a drop and run again (C23). Data queued for a channel nobody reads stays in memory, also
  after a drop, until the channel's closing is announced (C131). An instruction for a number in use replaces the callbacks of
  the service there, even when it is refused: that service gets no input and no hang-up any more, and a terminal outlives its
  channel and keeps its slot (C132).
* **Services.** The command loop ignores POLLHUP and never completes (C31). A command that cannot be started, or a file
  path that is not text, is reported, but the channel stays open (C143). Port forwards: a `sendall` that times out after
  part of the data, and an unlocked `self.socket` (C33); one connection's end sets the event all share (C34); the end of the
  local server's data is not noticed, the loop spins (C35).
* **Terminals.** A close before the spawn sends no signal (C38), input before the spawn is lost (C39), a hang-up together with
  a partial read drops output (C80), the channel is closed only in answer to input (C81), a resize between reading and
  setting the size is undone (C85), an improper size before the start keeps the terminal from starting (C86).
  An unknown user or group is ignored and the program runs with the agent's rights; the group is changed after the user, so both
  together never work; the agent's groups are kept (C119). A child that cannot execute its program waits for ever for a
  lock that was held at the fork (C120). A finished process stays a zombie until its channel is closed (C121), and the
  descriptor stays open if the window size cannot be set or sending raises (C122). The number of the descriptor is used after
  the descriptor is closed: input and window sizes can get to another terminal, file or socket that has got the number (C135).
* **Remote directory.** `upload_id`, `device_path` and `id` are not validated (C43, C82), distinct ids can name one snapshot
  (C44), an undecodable device path is not answered (C46), `..` leaves the directory (C49), the fallback for a missing folder
  never works (C50), a complete download that cannot be stored is kept (C84); links lead reads and stores out of the
  directory (C103, C104); a link to nothing, or a file made after the check, is replaced by a stored file (C105).
* **Scans.** Dropped and failed requests are never answered (C58); the result file is rewritten in place (C59); its name
  is known beforehand, a link planted there chooses the file a scan overwrites (C106).
* **API.** An unhashable error code raises TypeError (C62); `call` and `call_with_id` can use the same id (C63), and so can two threads, or one thread twice (C107); metadata are
  marked as sent if the server answers ids it was not asked (C66); disk reports follow the wall clock (C68); `urlopen` and
  `check_output` have no time limit (C69); a URL fragment swallows the feature list (C70); the m2m thread starts
  before terminals and port forwards are there, instructions for them are dropped (C95); a sync instruction makes the
  receiving thread wait for another thread's unanswered request (C97), for ever if it is never answered (C136).
* **Tools.** Interface names that are not ASCII are blurred (C73), an undecodable revision raises (C74), callers can change
  the metadata cache (C75), whose addresses are those of the first sync for as long as the agent runs: an agent that starts
  before the network has an address never reports one (C141), `int()` has a digit limit (C76), an unknown log level, an unusable log file and `--debug` end in
  tracebacks (C78).
* **Main thread.** The bare `except:` of `_sync_meta` swallows an interrupt, and a connection that cannot be closed
  replaces it (C123). `Client.exit`, `restart_agent`, `M2MManager.close` and `on_client_close` have no caller: terminals and
  commands are not ended with the agent.

## Mutation tests

In a copy outside this directory a definition of the model is edited as a programmer might get it wrong, and the theorems are
built again. If the theorems of the claim that the edit falsifies still prove, they are tightened. `seeded/LOG.jsonl` has one
line per edit. Edits are made in every model file; the `theorems_failed` field lists the theorems that no longer prove.
That a theorem no longer proves shows that its proof depends on the edited line, not that its statement became false. Where the
claim stays true and only the proof breaks, the entry says "none" for the claim: the lock theorems (C126, C127, C136) all rest on one
order of the locks, so any edit that leaves this order breaks all of them, also where no deadlock arises.
Besides edits by hand, small edits were also made automatically, definition by definition (a constant, an exception, a
constructor, a dropped update, a boundary); those that broke no theorem were looked at one by one. Most of them change
nothing observable (an exception that the caller swallows, a flag that no later step reads) or a text about which nothing
is claimed; the others led to new theorems.

## Trusted base

* Coq's kernel (8.16.1), checked again with `coqchk`.
* The reading of the Python code, as cited in the comments of `Model_*.v`, and the semantics of Python and the operating
  system written down in `Py.v`, `Model_Path.v` and the oracles of the models.
* The English of `properties.jsonl` against the Coq of `Spec_*.v` and `Prop_*.v`.
* No axioms: what `Print Assumptions` says of every theorem is below.

## Print Assumptions

<!-- assumptions -->
432 theorems, 432 of them "Closed under the global context", that is without any axiom.

**Prop_Agent.v** (33 theorems). Closed under the global context: `C66_until_accepted_partial`, `C66_never_afterwards_partial`, `C66_request_partial`, `C66_unreadable_metadata_refuted`, `C66_never_sent_refuted`, `C67_sent_iff_changed`, `C67_one_last_list`, `C67_unreadable`, `C68_an_hour_apart_partial`, `C68_first_poll_partial`, `C68_only_disk_polls_partial`, `C68_clock_jumps_refuted`, `C68_clock_set_back_refuted`, `C69_never_raises_partial`, `C69_completes_partial`, `C69_until_exit_partial`, `C69_silent_server_refuted`, `C69_endless_script_refuted`, `C70_query_partial`, `C70_prefix_partial`, `C70_fragment_refuted`, `C83_returned_iff_acknowledged`, `C83_sends`, `C83_sends_nothing_else`, `C83_never_raises`, `C89_no_script`, `C89_failing_script`, `C89_script_removed`, `C90_all_three`, `C90_first_poll`, `C137_authenticates`, `C137_nothing_else`, `C137_answers`.

**Prop_App.v** (8 theorems). Closed under the global context: `C78_no_command_partial`, `C78_success_partial`, `C78_failure_partial`, `C78_status_partial`, `C78_unknown_level_refuted`, `C78_debug_refuted`, `C78_log_file_refuted`, `C78_interrupted_refuted`.

**Prop_Bencode.v** (12 theorems). Closed under the global context: `C01_bencode_round_trip`, `C02_bencode_canonical`, `C03_bencode_self_delimiting`, `C03_bencode_prefix_free`, `C04_bencode_domain`, `C05_decode_finishes_refuted`, `C05_decode_finishes_partial`, `C05_hang_needs_open_size_partial`, `C06_malformed_decode_error_refuted`, `C06_malformed_exceptions_partial`, `C07_truncated_list_rejected`, `C08_decode_no_amplification`.

**Prop_Child.v** (16 theorems). Closed under the global context: `C119_user_partial`, `C119_group_partial`, `C119_unknown_user_refuted`, `C119_unknown_group_refuted`, `C119_user_and_group_refuted`, `C119_groups_kept_refuted`, `C119_other_groups_kept_refuted`, `C120_program`, `C120_runs`, `C120_ends_partial`, `C120_child_stays_refuted`, `C121_never_collected_refuted`, `C121_wait_collects_partial`, `C121_closing_collects_partial`, `C122_released_partial`, `C122_descriptor_kept_refuted`.

**Prop_Client.v** (43 theorems). Closed under the global context: `C13_packet_reaches_its_handler`, `C13_message_runs_handler_once`, `C13_message_makes_its_call`, `C13_failed_scan_is_reported`, `C13_informing_messages`, `C13_login_sets_user`, `C14_receive_loop_hangs_refuted`, `C14_loop_never_raises_partial`, `C14_unusable_message_leaves_no_trace_partial`, `C15_only_lists_refuted`, `C15_only_announced_packets_act_partial`, `C17_read_stream_fidelity`, `C18_read_returns_min`, `C19_readiness_exact_refuted`, `C19_ready_iff_queued_partial`, `C20_closed_channel_silent`, `C20_closed_channel_sends_nothing`, `C20_close_callback_at_most_once`, `C20_notify_close_closes`, `C20_drop_closes_all`, `C21_routed_to_registered_object`, `C21_nothing_else_delivers`, `C21_arrival_order`, `C21_all_delivered`, `C21_written_with_own_number`, `C21_control_to_registered_object`, `C21_control_sent_with_own_number`, `C21_close_requested_with_own_number`, `C22_reopen_after_drop_refuted`, `C22_closed_number_is_free_partial`, `C22_free_number_opens_fresh_partial`, `C23_once_across_drops_refuted`, `C23_once_without_drops_partial`, `C23_response_runs_all_partial`, `C23_drop_runs_all_partial`, `C24_ping_pong`, `C25_one_handshake_packet`, `C25_identity_rules`, `C25_manager_told`, `C25_manager_told_on_poll`, `C32_echo_answers`, `C32_echo_in_order`, `C79_thread_ends_cleanly_refuted`.

**Prop_Cmdline.v** (9 theorems). Closed under the global context: `C139_understood`, `C139_nothing_else`, `C139_only_given`, `C139_or_exits`, `C139_dash`, `C139_after`, `C139_hint`, `C139_client`, `C139_logging`.

**Prop_Depth.v** (6 theorems). Closed under the global context: `C128_same_or_refused`, `C128_within`, `C128_deep_refused`, `C128_long_refused`, `C128_no_new_hang`, `C129_loses_refused_only`.

**Prop_Early.v** (3 theorems). Closed under the global context: `C93_early_data_refuted`, `C93_from_then_on_partial`, `C93_installing_partial`.

**Prop_Ending.v** (4 theorems). Closed under the global context: `C143_not_started_refuted`, `C143_no_text_refuted`, `C143_command_partial`, `C143_file_partial`.

**Prop_Forward.v** (16 theorems). Closed under the global context: `C33_in_order_without_failures_partial`, `C33_all_delivered_partial`, `C33_prefix_when_broken_partial`, `C33_nothing_before_connection`, `C33_close_shuts_partial`, `C33_no_deadlock`, `C33_timeout_hole_refuted`, `C33_close_race_refuted`, `C34_independent_without_errors_partial`, `C34_shared_event_refuted`, `C34_event_ends_all`, `C35_in_order_partial`, `C35_ended_closes_partial`, `C35_hangup_closes_partial`, `C35_failure_ends_partial`, `C35_end_of_stream_refuted`.

**Prop_Handle.v** (5 theorems). Closed under the global context: `C135_while_open_partial`, `C135_forgotten_partial`, `C135_exclusive_partial`, `C135_other_terminal_refuted`, `C135_under_way_refuted`.

**Prop_Ids.v** (5 theorems). Closed under the global context: `C107_distinct_when_alone_partial`, `C107_every_call_gets_an_id_partial`, `C107_from_two_on_partial`, `C107_shared_refuted`, `C107_repeated_refuted`.

**Prop_Limiter.v** (8 theorems). Closed under the global context: `C27_limiter_exact`, `C27_no_deadlock`, `C28_no_slot_leaks`, `C28_quiet_system_is_empty`, `C29_refused_cleanly`, `C29_refusal_message`, `C29_full_limiter_refuses`, `C29_started_is_silent`.

**Prop_Links.v** (13 theorems). Closed under the global context: `C103_reads_inside_without_links_partial`, `C103_copies_permitted_file_partial`, `C103_links_followed_refuted`, `C104_stores_inside_without_links_partial`, `C104_stored_in_remote_directory_partial`, `C104_linked_folder_refuted`, `C104_dangling_link_refuted`, `C105_nothing_replaced_partial`, `C105_dangling_link_replaced_refuted`, `C105_race_refuted`, `C106_scan_changes_its_file_partial`, `C106_scan_written_partial`, `C106_planted_link_refuted`.

**Prop_Locks.v** (7 theorems). Closed under the global context: `C126_no_deadlock`, `C126_exclusive`, `C126_released`, `C127_leaves`, `C136_others_partial`, `C136_alone_partial`, `C136_packets_refuted`.

**Prop_Logging.v** (3 theorems). Closed under the global context: `C138_level`, `C138_known`, `C138_fails`.

**Prop_Manager.v** (15 theorems). Closed under the global context: `C26_reported_until_acknowledged`, `C26_not_again_once_acknowledged`, `C26_only_what_was_told`, `C26_blank_changes_nothing`, `C36_open_by_name_partial`, `C36_unknown_name_partial`, `C36_unknown_port_partial`, `C36_open_by_port_partial`, `C36_stale_port_refuted`, `C36_default_services_partial`, `C40_lists_launched`, `C40_launch_forgets_closed`, `C40_close_closes_all`, `C41_does_what_is_asked`, `C41_not_a_dictionary`.

**Prop_Meta.v** (7 theorems). Closed under the global context: `C141_addresses_refuted`, `C141_stale_refuted`, `C141_first_partial`, `C141_unchanged_partial`, `C141_tells_partial`, `C142_only_this`, `C142_first_poll`.

**Prop_Opening.v** (9 theorems). Closed under the global context: `C115_service_connected_partial`, `C115_orphaned_terminal_refuted`, `C116_refusal_heard_partial`, `C116_dead_number_refuted`, `C117_echo_heard`, `C118_within_limits`, `C118_full_of_its_own`, `C118_apart`, `C118_counts_running`.

**Prop_Outbound.v** (4 theorems). Closed under the global context: `C108_heard_is_what_is_said`, `C109_prefix_of_the_file`, `C109_whole_file_or_error`, `C109_prefix_of_the_output`.

**Prop_Packets.v** (7 theorems). Closed under the global context: `C09_packet_round_trip`, `C10_never_half_initialised`, `C11_one_class_per_type`, `C11_registration_succeeds`, `C12_from_bytes_only_packet_error_refuted`, `C12_from_bytes_outcomes_partial`, `C16_password_not_logged`.

**Prop_Process.v** (13 theorems). Closed under the global context: `C37_signals`, `C37_no_kill_after_exit`, `C37_kill_comes`, `C37_does_not_give_up`, `C38_close_before_spawn_refuted`, `C38_close_after_spawn_partial`, `C39_input_in_order_partial`, `C39_input_before_spawn_refuted`, `C80_output_in_order_partial`, `C80_output_when_all_read_partial`, `C80_output_lost_at_exit_refuted`, `C81_channel_stays_open_refuted`, `C81_input_after_end_partial`.

**Prop_Queue.v** (5 theorems). Closed under the global context: `C130_conserved`, `C130_no_more_than_received`, `C130_objects`, `C131_released_after_drop_refuted`, `C131_registered_until_closed_partial`.

**Prop_Relay.v** (12 theorems). Closed under the global context: `C110_stream_heard`, `C111_local_server_gets_partial`, `C111_timeout_hole_refuted`, `C112_output_heard`, `C113_input_arrives_partial`, `C113_early_input_refuted`, `C114_closing_hangs_up_partial`, `C114_signals_partial`, `C114_closed_too_early_refuted`, `C134_unreachable_server`, `C134_thread_ends`, `C34_heard_refuted`.

**Prop_Remote.v** (41 theorems). Closed under the global context: `C42_only_permitted_files_copied`, `C42_success_copies_permitted_file`, `C42_backrefs_refused`, `C42_backref_request_changes_no_file`, `C43_plain_ids_confined_partial`, `C43_plain_ids_read_snapshot_partial`, `C43_undecodable_ids_partial`, `C43_absolute_ids_refuted`, `C44_snapshot_isolation_partial`, `C44_well_behaved_server_partial`, `C44_packets_carry_snapshot_partial`, `C44_other_name_refuted`, `C45_chunks_reassemble`, `C45_chunks_reassemble_among_others`, `C45_reading_ends`, `C45_packets_reassemble`, `C45_fetching_ends`, `C46_one_reply_partial`, `C46_reply_says_what_happened_partial`, `C46_undecodable_device_path_refuted`, `C47_chunked_writes_assemble`, `C47_single_packet`, `C47_writes_succeed`, `C48_existing_files_kept`, `C48_smallest_free_name`, `C48_hundred_taken_names_fail`, `C48_undecodable_path`, `C49_stored_inside_partial`, `C49_backref_escapes_refuted`, `C50_missing_folder_refuted`, `C50_missing_folder_never_succeeds_refuted`, `C51_disk_space_margin`, `C51_without_usage_information`, `C52_close_never_fails`, `C52_other_files_kept`, `C52_snapshot_removed`, `C52_idempotent`, `C82_writes_confined_partial`, `C82_any_file_written_refuted`, `C84_partial_data_removed_partial`, `C84_unstored_download_kept_refuted`.

**Prop_Rpc.v** (24 theorems). Closed under the global context: `C60_ids_count_up`, `C60_distinct_and_increasing`, `C61_returns_matching_result`, `C61_otherwise_raises`, `C61_this_call`, `C61_how_it_ends`, `C61_one_ending`, `C62_errors_classified_partial`, `C62_one_description_partial`, `C62_strange_code_refuted`, `C63_distinct_partial`, `C63_distinct_supplied_partial`, `C63_mixed_ids_refuted`, `C64_reports_response`, `C64_unanswered`, `C64_result_was_given`, `C64_any_order`, `C64_well_formed`, `C64_no_list`, `C65_sent_once_or_not`, `C65_leaving_sends`, `C87_sent_once_without_id`, `C87_answer_ignored`, `C88_check`.

**Prop_Scan.v** (18 theorems). Closed under the global context: `C53_scan_ends`, `C53_limited_scan_ends`, `C53_scan_ends_if_inodes_finite`, `C54_depth_and_hidden`, `C55_complete_on_ordinary_trees`, `C56_only_what_exists`, `C56_no_root_no_result`, `C57_one_scan_at_a_time`, `C57_success_after_write`, `C58_every_request_answered_refuted`, `C58_failure_answered_refuted`, `C58_one_answer_partial`, `C58_answered_partial`, `C59_never_torn_refuted`, `C59_failed_write_refuted`, `C59_whole_between_writes_partial`, `C133_scan_fails_only_if_reading_fails`, `C133_scan_succeeds`.

**Prop_Services.v** (9 theorems). Closed under the global context: `C30_prefix_in_chunks`, `C30_whole_file_or_one_error`, `C30_other_path_leaves_channel_open`, `C31_command_never_completes_refuted`, `C31_prefix_of_stdout_partial`, `C31_ending_partial`, `C31_closed_channel_ends_loop_partial`, `C31_readable_end_completes_partial`, `C31_forwards_what_is_read_partial`.

**Prop_Shutdown.v** (7 theorems). Closed under the global context: `C123_interrupt_ends_partial`, `C123_cleans_up_partial`, `C123_swallowed_refuted`, `C123_replaced_refuted`, `C124_exit_ends`, `C125_only_main`, `C125_process_ends`.

**Prop_Sizes.v** (5 theorems). Closed under the global context: `C140_wire`, `C140_services`, `C140_forward`, `C140_on_the_wire`, `C140_reached`.

**Prop_Start.v** (9 theorems). Closed under the global context: `C94_uses_what_is_meant`, `C94_one_meaning`, `C94_starts`, `C94_refuses`, `C94_refuses_why`, `C95_early_instruction_refuted`, `C95_its_part_is_there_partial`, `C95_dropped_partial`, `C95_once_started_partial`.

**Prop_Sync.v** (6 theorems). Closed under the global context: `C96_no_overlap`, `C96_not_after_acknowledged`, `C96_until_acknowledged`, `C96_lock_returned`, `C97_waits_for_another_refuted`, `C97_after_acknowledgement_partial`.

**Prop_System.v** (14 theorems). Closed under the global context: `C98_called_for_messages`, `C98_one_call_each`, `C98_call_comes_first`, `C99_answered_on_the_wire_partial`, `C99_one_request_each_partial`, `C99_every_request_has_a_message_partial`, `C99_silence_refuted`, `C100_deeds_as_instructed`, `C100_one_deed_each`, `C101_file_over_the_wire`, `C101_fetching_ends`, `C102_stored_over_the_wire`, `C102_single_message`, `C102_storing_succeeds`.

**Prop_Takeover.v** (4 theorems). Closed under the global context: `C132_keeps_channel_partial`, `C132_undisturbed_partial`, `C132_taken_over_refuted`, `C132_deaf_terminal_refuted`.

**Prop_Threads.v** (11 theorems). Closed under the global context: `C91_reused_number_refuted`, `C91_undisturbed_call_partial`, `C91_after_the_close_partial`, `C91_own_number_partial`, `C92_two_readers_refuted`, `C92_empty_message_refuted`, `C92_single_reader_partial`, `C92_stream_partial`, `C92_event_exact_partial`, `C92_lock_released_partial`, `C92_waiting_served_partial`.

**Prop_Tools.v** (29 theorems). Closed under the global context: `C71_words`, `C71_words_exist`, `C71_clean`, `C71_text`, `C72_consistent`, `C72_counts`, `C72_part`, `C72_percent`, `C72_empty`, `C73_interfaces_partial`, `C73_addresses_partial`, `C73_notation_partial`, `C73_names_refuted`, `C74_found_partial`, `C74_absent_partial`, `C74_unreadable_partial`, `C74_lines_partial`, `C74_value_partial`, `C74_undecodable_refuted`, `C75_private_partial`, `C75_cache_refuted`, `C75_addresses_refuted`, `C76_integer_partial`, `C76_default_partial`, `C76_unset_partial`, `C76_one_partial`, `C76_too_long_refuted`, `C77_killed`, `C77_stopped`.

**Prop_Window.v** (8 theorems). Closed under the global context: `C85_window_has_latest_size_partial`, `C85_running_terminal_resized`, `C85_start_undoes_resize_refuted`, `C86_other_data_ignored`, `C86_improper_size_ignored_partial`, `C86_improper_size_ends_terminal_refuted`, `C86_improper_initial_size_refuted`, `C86_only_while_open`.
<!-- end of assumptions -->
