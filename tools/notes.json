{
 "C01": "All encodable values of the modelled universe; py_object only says keys are distinct and byte strings are shorter than 2^63.",
 "C05": "False as stated: an unterminated string size hangs the decoder (witness b\"5\"). Proved: exact grammar of the hanging inputs.",
 "C06": "False as stated (ValueError, TypeError, OverflowError witnesses). Proved: these and DecodeError are the only exceptions.",
 "C09": "All 46 packet classes; same_data identifies a tuple with a list and text with its UTF-8 bytes, as the wire does.",
 "C101": "Hypotheses: the temporary directory is a normal path, the root absolute, the upload id a plain file name in UTF-8; nothing in between names the snapshot.",
 "C102": "Hypotheses: the download file of the id is neither of the two temporary directories; nothing in between names it.",
 "C103": "Proved when no link is in the remote directory (links elsewhere, also on the way to it, are allowed) and no other program interferes during the request; false when a link in it leads out.",
 "C104": "Proved when no link is in the remote directory and no other program interferes during the request; false with a linked folder, and with a link to nothing when the download has to be copied.",
 "C105": "Proved for files and folders while no other program interferes; a link to nothing is replaced, and so is a file made between the check and the rename.",
 "C106": "Proved when the name of the result file is not a link and no other program interferes; false with a planted link.",
 "C107": "One thread at a time: the ids are 2, 3, 4, ...; always: every call gets an id, none below 2. Missing: distinctness with threads at once, false: two threads can get the same id, and one thread the same id twice (refuted). The sending and syncing threads share one JSONRPC object (client.py:71).",
 "C108": "A channel operation is one step here (C91 is about what can happen in between). Callbacks that use the channel themselves are excluded by hypothesis; in the agent that is the echo service, covered by C21.",
 "C109": "The operations on the channel among the inputs of the client are those of a run of the service model; the service's view of the channel (closed or not) is the oracle of that model.",
 "C110": "A channel operation is one step (see C91). The service's callbacks are those installed; other callbacks and threads neither speak through the channel nor replace its callbacks.",
 "C111": "Proved where no sendall failed; refuted in general by a session with a sendall that times out. Otherwise as C110.",
 "C112": "What is left unread when the process thread ends stays unread: see C80.",
 "C113": "All of it unless the terminal asked for the channel to be closed; refuted by input that comes before the process is there.",
 "C114": "Proved once the creation of the process has been noted; refuted for a channel closed before that.",
 "C115": "Proved unless the number is that of a channel closed by the end of an earlier connection; refuted there: the terminal is orphaned. Channel numbers are integers.",
 "C116": "Proved unless the number is that of a channel closed by the end of an earlier connection, where nothing is heard (refuted); the websocket raises nothing but WebSocketError, the control text is encodable.",
 "C117": "A channel operation is one step (see C91). Messages shorter than 2^63 bytes; other callbacks and threads neither speak through the channel nor replace its callbacks.",
 "C118": "Counters are exact, which is C27; each request and ending is one step.",
 "C119": "Proved: the user's ids, kept for ever, and the group's ids. False: unknown users are ignored, user and group together fail, the agent's groups stay.",
 "C12": "False as stated (IndexError for b\"le\", decoder exceptions, hang). Proved: exact list of outcomes.",
 "C120": "The child ends only if the limiter's lock was free at the fork.",
 "C121": "Collected once the channel is closed or a wait thread runs; before that nobody waits.",
 "C122": "Under no failing ioctl and no exception but OSError from sending.",
 "C123": "For interrupts outside the gathering of metadata and without failures afterwards; both are needed.",
 "C124": "Nothing in the code calls exit().",
 "C125": "Which thread starts which is read off the code (may_start).",
 "C126": "Locks of the agent only; a call that blocks inside a lock (websocket send, flush, sync, scan) is one step of the model, so its return is assumed.",
 "C127": "A scan, a sync, a flush and a send inside their locks may take any number of steps; the thread is only assumed not to stay at one of them for ever.",
 "C128": "RecursionError is EOther in the model; the encoder's limits are not modelled.",
 "C129": "Limits in the decoder only; handlers and logging are taken to stay within them.",
 "C13": "Handler table stated independently; every packet class, all argument lists.",
 "C130": "Channel numbers are integers; messages that are refused by the interpreter's limits count as messages.",
 "C131": "False: for every n a session leaves n bytes in closed channels after a drop. Proved instead: a registered channel stays registered until its closing is announced.",
 "C132": "The full claim is false: an instruction for a number in use replaces the callbacks. Channel numbers are integers; a channel's test of is_closed and the sending are one step.",
 "C133": "Exact: the only exceptions are ScanDirectoryError for a root that is no directory and the operating system's error while reading a listing.",
 "C134": "Includes the case that sending the data that had already arrived fails at once.",
 "C135": "Proved while the descriptor is open, after its number is forgotten, and for all runs in which closing and forgetting exclude the callbacks. False in between: a closed number that is given out again is still written to.",
 "C136": "True of all threads that do not sync. Refuted for the handling of packets: the thread that handles them syncs when told to (client.py:219-225, m2mmanager.py:168-169), and then waits for a sync that the server never answers.",
 "C137": "A token None, which Client never has, is told apart by set_m2m_identity and compared only with itself. Logging is not in the model; no log call is given the token.",
 "C138": "The parts of CPython's logging that are used are modelled by hand; rotation of the file and failing writes are not.",
 "C139": "argparse of CPython 3.11.10 as far as this parser uses it is modelled by hand; which words look like negative numbers is left open. Other versions of argparse differ in corner cases (words of several letters, --).",
 "C14": "False as stated: message b\"5\" hangs the loop. Proved: no exception escapes, hang exactly on the decoder's hanging inputs, unusable messages leave the session unchanged.",
 "C140": "The echo service (whose messages are as long as the peer's) and the replies to the server's reads of remote files (remote_directory.py:211 reads as many bytes as the server asks for) are not services in this sense and have no such bound. That a terminal, a socket or a pipe returns no more than is asked for is part of the model.",
 "C141": "False as stated: get_meta caches the addresses of the first sync for the life of the process, so a device that gets its address after the agent started, with a server that could not be reached before, is reported and accepted without one (C141_addresses_refuted). What holds: every request with metadata tells the device as it was at the first sync that could ask it, and a sync tells it until the server has acknowledged all of it. Changes between the calls of get_meta within one sync are left out; how the host answers is an input.",
 "C142": "That the metadata are those of the first sync that could ask the host is C141; here only that they were the host's at one of the operations. When disk and tags are sent again is C67 and C68.",
 "C143": "False as stated: run_service reports an exception of Popen (no process can be made, too many descriptors, a NUL byte in the command) but does not close the channel (C143_not_started_refuted), and FileService does the same for a path that is not text (C143_no_text_refuted). Holds for a process that was started and a path that is text, if the websocket raises nothing but WebSocketError and a started process's descriptors fail with OSError if at all. That a command need not end at all is C31; refused launches are C116.",
 "C15": "False as stated: a byte string starting with a type byte is dispatched too (b\"2:\\x0e\\x05\" opens channel 5). Proved: only announced packets change anything.",
 "C16": "For any repr function; noninterference over all pairs of packets.",
 "C17": "Read and buffer operations are atomic steps (both hold the channel lock).",
 "C19": "False as stated: an empty data message makes the channel truthy with nothing to read. Proved: truthy iff a message is queued.",
 "C20": "A raw client.send with a hand-made packet for the same number is outside the claim.",
 "C21": "data_message needs payloads shorter than 2^63 bytes.",
 "C22": "False as stated after a dropped connection: the closed channel object stays registered. Proved for notify_close.",
 "C23": "False as stated across drops: clear_callbacks does not remove what it ran. Proved without drops, plus what a response and a drop run.",
 "C25": "The poll event only reports the identity. The identity must be shorter than 2^63 bytes.",
 "C26": "Any history of identities, tokens and API answers. A failed report of another identity un-settles the first (shown in the example).",
 "C27": "Read, add and write of the counter are separate steps; any number of requests, any failure of thread start.",
 "C29": "Six request kinds. A failed thread start counts as a refusal.",
 "C30": "The oracle may close the channel or fail any step. A non-text path is reported but leaves the channel open (extra theorem).",
 "C31": "False as stated: a finished command is reported by poll as hang-up only and the loop never ends. Proved: data order, exact ending when the loop ends, and when it does.",
 "C32": "Messages shorter than 2^63 bytes. Data buffered before the service is attached is not echoed.",
 "C33": "Modelled with both threads and the lock, one step per statement. Refuted twice: a sendall timeout drops the rest of the buffer and later data follows the hole; self.socket is set without the lock, so SHUT_WR can precede the flush. Proved: in order and complete when no send raises, prefix when the socket breaks for good, no deadlock.",
 "C34": "Refuted: close_event belongs to the manager and is never cleared, so one hang-up ends all connections and every later one. Proved: independence while no poll reports an error.",
 "C35": "Refuted: end of stream polls as POLLIN with empty recv and break leaves only the for loop, so the thread spins and the channel stays open. Proved: data in order, a connection that leaves its loop closes the channel (unless the elapsed time is 0), hang-up leaves the loop.",
 "C36": "False as stated: a name registered twice leaves its old port pointing at the new one. Proved for everything else; port 0 means port 80.",
 "C37": "Monotonic clock. The process may have exited between the wait thread's look and its SIGKILL, never been collected.",
 "C38": "False as stated: a close before the fork returns never signals the process. Proved once the pid is known.",
 "C39": "False for input that arrives before the process is spawned (lost, and the channel is closed). Proved otherwise for any sequence of partial writes and failures.",
 "C41": "All dictionaries of wire values, including keys that are not bytes, duplicate names after decoding, and unhashable channel numbers.",
 "C42": "Lexical: symbolic links are not modelled. The root is absolute, as os.path.abspath makes it.",
 "C43": "Refuted: the id is joined unchecked, an absolute id reads and removes any file. Proved for ids that are ordinary names.",
 "C44": "Refuted by another id that names the same file (./u). Proved for ordinary ids and servers that use the paths given to them.",
 "C45": "read_upload alone; that its data go into one reply packet is C46.",
 "C46": "False for a device path that is not UTF-8. Proved otherwise, for every fault schedule, up to strings of 2^63 bytes and for encodable exception messages.",
 "C47": "Safety for every accepted sequence with other events in between; success without I/O errors.",
 "C48": "Other programs creating the chosen name between the check and the rename, and dangling links, are not modelled.",
 "C49": "Refuted: copy_download accepts '..'. Proved for paths without it.",
 "C50": "Refuted for every path with a missing folder: the fallback is only used for numbered names.",
 "C51": "Unused = f_bfree * f_frsize, the meaning of disk_tools.disk_usage().used.",
 "C52": "For ids with path separators 'its snapshot' is whatever the joined path names (see C43).",
 "C53": "Assumes that inode() does not raise, as in CPython on POSIX; with a depth limit, such as the default of 10, that is not needed. A file system that does not change during the scan.",
 "C55": "The result also has the right order of entries within a directory.",
 "C58": "False: a request made while a scan holds the lock is dropped, and a scan that fails in its thread is only logged. Proved: at most one answer per request, and an answer when no scan was running and nothing fails.",
 "C59": "False: the file is truncated and rewritten in place. Proved: whole whenever no thread is writing and no write has failed.",
 "C60": "Threads that race on call_id are not modelled (the agent only uses call_with_id).",
 "C61": "A Silent network makes call hang: urlopen has no time limit.",
 "C62": "False when the error code is an array or an object: TypeError (C62_strange_code_refuted). Proved for all other codes.",
 "C63": "False when call and call_with_id are mixed with integer ids: only call_with_id checks, and only against its own ids. Proved for non-numeric (or < 2) supplied ids and for batches without call.",
 "C64": "Order independence needs at most one response per id, as JSON-RPC demands; C64_twice shows what happens otherwise.",
 "C65": "A body that calls send itself sends once more (C65_sent_by_body); C65_leaving_sends covers every body.",
 "C66": "False when the metadata cannot be read: the sync then sends only authentication (refuted), and a server that answers ids it was not sent stops metadata for good (refuted). Proved for every history in which either all metadata was readable or the server only acknowledges what it was sent.",
 "C68": "The clock is time.time(): a jump lets two reports through within an hour of real time, and setting it back before the first poll silences that poll (both refuted). Proved: two reports are an hour of clock readings apart whatever happens between, the first poll not before the start time reports, nothing else reports.",
 "C69": "urlopen and check_output have no time limit: a silent server or an endless tag script hang the poll (refuted). Proved: no exception ever leaves a poll, and without those two hangs every poll completes and polling goes on until exit.",
 "C70": "A URL with a fragment and no question mark gets the feature list in its fragment (refuted). Proved for all URLs without fragment; the prefix for all URLs.",
 "C71": "Under Python 3, where \\s is Unicode white space; bytes that are not UTF-8 are dropped, as the code does.",
 "C72": "Float division, multiplication and round(x, 1) are any monotone functions that keep 0, 1 and 100.",
 "C73": "Exact for ASCII names and for all addresses; refuted for other names, which are blurred to U+FFFD.",
 "C74": "Proved for values that are UTF-8; the value is in lower case, as the code reports it. Refuted otherwise: UnicodeDecodeError escapes.",
 "C75": "Refuted: the first call returns the cache itself and the copies share ip_list. Proved for programs that leave the first dictionary and its list alone.",
 "C76": "Proved up to int()'s limit of digits (CPython 3.11: 4300), refuted beyond it.",
 "C77": "Clock readings are exact rationals. A jump backwards is not noticed, as the statement asks.",
 "C78": "Refuted: an unknown log level, a log file that fails and --debug give tracebacks. Proved for the rest. argparse is not modelled.",
 "C79": "False: WSClient.run calls self.on_close, which does not exist.",
 "C80": "False as stated: a hang-up reported together with a partial read drops the rest. Proved: prefix, and everything if nothing is left unread.",
 "C81": "False: the agent asks to close a terminal's channel only in answer to input.",
 "C82": "Refuted: the device path of a write is used unchecked. Proved: nothing else changes.",
 "C84": "Holds when the data cannot be written and the removal itself succeeds (C84_partial_data_removed_partial). Missing: a download that is complete but cannot be stored is kept in the directory for downloads (C84_unstored_download_kept_refuted), and a failed removal is ignored by the code.",
 "C85": "False if a message comes between reading the size and setting it at the start (C85_start_undoes_resize_refuted). Proved for all other interleavings, if no ioctl fails.",
 "C86": "Proved for data that ask for no size, and for improper sizes while the terminal runs. False before the start: the improper size is stored and makes the start raise (C86_improper_size_ends_terminal_refuted); so does an improper initial size.",
 "C87": "Text that reaches the client; the HTTP exchange itself is one oracle step. As everywhere, a server that never answers hangs the call.",
 "C88": "Up to the first id that raises; results with the same id count as the last one, as the code does.",
 "C89": "A script that never ends hangs the poll (C69), which is outside the claim.",
 "C90": "Hangs of urlopen and check_output are outside the claim (C69).",
 "C91": "Refuted by a schedule: the test of is_closed and the sending are not atomic. Proved for calls not overlapped by the close of that channel; at most one stale packet per thread.",
 "C92": "Refuted with two readers and with an empty message; proved for one reader and non-empty messages. Stream order and wake-ups hold without restriction.",
 "C93": "Refuted: data routed before set_callbacks stays in the buffer. Proved from the installation on, while connection, channel and callbacks stay.",
 "C94": "The locale encoding is taken to be UTF-8.",
 "C95": "Refuted: terminals and port forwards are set up after the m2m thread was started. Proved with the exact condition per instruction.",
 "C97": "Refuted by a schedule; proved once the metadata were acknowledged.",
 "C99": "No reply for a close, nor for a write whose device path is not UTF-8 (C99_silence_refuted). The rest is proved for replies that fit in a packet."
}