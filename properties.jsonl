{"id": "C01", "title": "Bencode round trip", "statement": "Decoding the bytes produced by bencode.encode(v) yields a value carrying exactly the data of v: text comes back as its UTF-8 bytes, tuples as lists, dictionaries with the same keys and values in any order, nothing added, dropped or reordered in lists.", "quantifier": "every encodable Python value (bytes, valid text, unbounded ints, lists/tuples, dicts with bytes keys), at every nesting depth and size", "why_tests_cant": "Values are an infinite recursive family; tests sample a dozen literals.", "anchors": ["dataplicity/m2m/bencode.py:encode", "dataplicity/m2m/bencode.py:decode", "dataplicity/m2m/bencode.py:_decode"]}
{"id": "C02", "title": "Bencode is canonical and injective", "statement": "Two encodable values have the same encoding exactly when they carry the same data; in particular the insertion order of a dictionary never shows in the bytes.", "quantifier": "every pair of encodable values", "why_tests_cant": "Needs all pairs of values.", "anchors": ["dataplicity/m2m/bencode.py:encode"]}
{"id": "C03", "title": "Bencode messages are self-delimiting", "statement": "Decoding an encoding followed by arbitrary extra bytes gives the same value and consumes exactly the encoding; no encoding is a proper prefix of another.", "quantifier": "every encodable value and every byte suffix", "why_tests_cant": "All suffixes of all encodings.", "anchors": ["dataplicity/m2m/bencode.py:_decode"]}
{"id": "C04", "title": "Bencode encode accepts exactly the encodable values", "statement": "encode returns bytes exactly for values built from bytes, surrogate-free text, ints, lists, tuples and dicts with bytes keys, and raises (never hangs, never returns garbage) for every other value; a dict with a non-bytes key is always refused.", "quantifier": "every Python value of the modelled universe, including bools, None, floats and text with lone surrogates, nested anywhere", "why_tests_cant": "The offending value may sit at any depth of any container.", "anchors": ["dataplicity/m2m/bencode.py:encode", "dataplicity/m2m/bencode.py:EncodingError"]}
{"id": "C05", "title": "Bencode decode always finishes", "statement": "decode terminates on every byte string, with a value or an exception.", "quantifier": "every byte string", "why_tests_cant": "All byte strings; a hang only shows as a test that never ends.", "anchors": ["dataplicity/m2m/bencode.py:_decode"]}
{"id": "C06", "title": "Malformed bencode raises DecodeError", "statement": "Whenever decode fails it raises bencode.DecodeError, the one exception its callers are told to expect.", "quantifier": "every byte string", "why_tests_cant": "All byte strings.", "anchors": ["dataplicity/m2m/bencode.py:_decode", "dataplicity/m2m/packetbase.py:PacketBaseType.from_bytes"]}
{"id": "C07", "title": "A truncated packet is never accepted", "statement": "If the connection delivers only a proper prefix of an encoded packet (a list), decode does not return any value for it.", "quantifier": "every encodable list value and every proper prefix of its encoding", "why_tests_cant": "Every cut point of every packet.", "anchors": ["dataplicity/m2m/bencode.py:_decode"]}
{"id": "C08", "title": "Decoding does not amplify", "statement": "The total number of content bytes plus the number of nodes in a decoded value is at most the length of the input, whatever sizes the input claims.", "quantifier": "every byte string that decodes", "why_tests_cant": "Sizes claimed in the input are unbounded.", "anchors": ["dataplicity/m2m/bencode.py:_decode"]}
{"id": "C09", "title": "Packet round trip over the wire", "statement": "A packet built from any accepted arguments, encoded with as_bytes and parsed with from_bytes by the peer, is a packet of the same type with the same attribute data.", "quantifier": "every packet type in the registry and all attribute values accepted by the constructor and the encoder", "why_tests_cant": "Every packet class times all attribute values.", "anchors": ["dataplicity/m2m/packetbase.py:PacketBaseType", "dataplicity/m2m/packets.py"]}
{"id": "C10", "title": "Packets are never half-initialised", "statement": "Constructing a packet either yields an object in which every declared attribute is present with its declared type (text arguments as UTF-8 bytes), or raises PacketFormatError because of a missing or mistyped attribute, or - exactly when a text argument has no UTF-8 encoding (lone surrogate) - raises UnicodeEncodeError; keyword arguments win over positional ones and surplus arguments are ignored.", "quantifier": "every packet class, every positional and keyword argument list", "why_tests_cant": "All argument combinations.", "anchors": ["dataplicity/m2m/packetbase.py:PacketBaseType.init_params", "dataplicity/m2m/packetbase.py:PacketBaseType.create"]}
{"id": "C11", "title": "One class per packet type", "statement": "Each numeric packet type selects at most one packet class, each class has its own type, types that have no class are rejected by create (ValueError) and from_bytes (UnknownPacketError).", "quantifier": "every integer used as packet type", "why_tests_cant": "The type field ranges over all integers.", "anchors": ["dataplicity/m2m/packetbase.py:PacketMeta", "dataplicity/m2m/packets.py:PacketType"]}
{"id": "C12", "title": "from_bytes fails only with PacketError", "statement": "For every byte string from_bytes returns a packet or raises a PacketError subclass.", "quantifier": "every byte string", "why_tests_cant": "All byte strings.", "anchors": ["dataplicity/m2m/packetbase.py:PacketBaseType.from_bytes"]}
{"id": "C13", "title": "Each packet reaches its handler once", "statement": "A well formed incoming packet of a handled type runs exactly the handler registered for that type, once, with the attribute values in declared order; a known type without handler has no effect; no accepted packet fails on handler arity.", "quantifier": "every packet type, every body", "why_tests_cant": "All types times all bodies.", "anchors": ["dataplicity/m2m/dispatcher.py:Dispatcher", "dataplicity/m2m/wsclient.py:WSClient"]}
{"id": "C14", "title": "No websocket event stops the receive loop", "statement": "Handling any sequence of websocket events never lets an exception escape the receive loop, and a message that cannot be decoded, has an unknown type or a bad body changes nothing the agent acts on (channels, identity, pending callbacks, files), so the rest of the session proceeds as if it had not arrived.", "quantifier": "every sequence of websocket events with arbitrary binary payloads", "why_tests_cant": "All histories of arbitrary messages.", "anchors": ["dataplicity/m2m/wsclient.py:WSClient.run", "dataplicity/m2m/wsclient.py:WSClient.on_event", "dataplicity/m2m/wsclient.py:WSClient.on_binary", "dataplicity/m2m/wsclient.py:WSClient.on_packet"]}
{"id": "C15", "title": "Only packet lists are dispatched", "statement": "A message is dispatched to a handler only if it is a bencoded list whose first element is a packet type number.", "quantifier": "every binary message", "why_tests_cant": "All binary messages.", "anchors": ["dataplicity/m2m/wsclient.py:WSClient.on_packet"]}
{"id": "C16", "title": "Passwords never appear in packet logs", "statement": "The logged representation of a packet does not depend on its password attribute, and shows at most 32 bytes of any binary attribute.", "quantifier": "every packet and every pair of passwords", "why_tests_cant": "Non-interference: compares all pairs of values.", "anchors": ["dataplicity/m2m/packetbase.py:PacketBaseType.__repr__"]}
{"id": "C17", "title": "Channel read stream fidelity", "statement": "For any interleaving of incoming data and reads, the bytes returned by the reads in order, followed by the bytes still buffered, are exactly the incoming bytes in order: nothing lost, duplicated or reordered.", "quantifier": "every sequence of on_data/read/close operations, with any counts, including zero and negative", "why_tests_cant": "All interleavings and chunkings.", "anchors": ["dataplicity/m2m/wsclient.py:Channel.on_data", "dataplicity/m2m/wsclient.py:Channel.read"]}
{"id": "C18", "title": "Channel read returns exactly min(count, available) bytes", "statement": "read(count) with count >= 0 returns the first min(count, size) buffered bytes across message boundaries and leaves the rest.", "quantifier": "every buffer content and count", "why_tests_cant": "All chunk boundaries.", "anchors": ["dataplicity/m2m/wsclient.py:Channel.read", "dataplicity/m2m/wsclient.py:Channel.size"]}
{"id": "C19", "title": "Channel readiness flag is exact", "statement": "At any moment between operations the channel is truthy (and a blocking read does not wait) exactly when there is buffered data to read.", "quantifier": "every history of operations", "why_tests_cant": "All histories.", "anchors": ["dataplicity/m2m/wsclient.py:Channel.__nonzero__", "dataplicity/m2m/wsclient.py:Channel.read"]}
{"id": "C20", "title": "A closed channel stays silent", "statement": "After a channel is closed no data or control callback runs, no data, control or close packet is sent for it, nothing is buffered, and its close callback has run at most once in its life.", "quantifier": "every history of operations on a channel object", "why_tests_cant": "All histories.", "anchors": ["dataplicity/m2m/wsclient.py:Channel"]}
{"id": "C21", "title": "No cross-talk between channels", "statement": "Data routed to channel n is delivered only to the channel object registered for n, in arrival order, and data written through a channel is sent tagged with that channel's number.", "quantifier": "every sequence of websocket events and every pair of channel numbers", "why_tests_cant": "All interleavings of channels.", "anchors": ["dataplicity/m2m/wsclient.py:WSClient.handle_route", "dataplicity/m2m/wsclient.py:WSClient.get_channel", "dataplicity/m2m/wsclient.py:WSClient.channel_write"]}
{"id": "C22", "title": "A reopened channel number is usable", "statement": "After the server closes a channel or the connection drops, opening the same channel number again gives an open, empty channel without the old callbacks.", "quantifier": "every history that ends with the channel being closed and reopened", "why_tests_cant": "Needs all histories with reconnects.", "anchors": ["dataplicity/m2m/wsclient.py:WSClient.on_notify_close", "dataplicity/m2m/wsclient.py:WSClient.hard_close_channels", "dataplicity/m2m/wsclient.py:WSClient.get_channel"]}
{"id": "C23", "title": "Command callbacks run exactly once", "statement": "Every callback registered for a command id runs at most once: with the result when the response arrives or with None when the connection drops; a failing callback does not stop the others.", "quantifier": "every sequence of registrations, responses and disconnects, any callbacks failing", "why_tests_cant": "All histories and failure patterns.", "anchors": ["dataplicity/m2m/wsclient.py:WSClient.callback", "dataplicity/m2m/wsclient.py:WSClient.clear_callbacks"]}
{"id": "C24", "title": "Ping is answered by one pong", "statement": "Each ping produces exactly one pong carrying the first 1024 bytes of its data, and nothing else is sent.", "quantifier": "every ping payload of any length", "why_tests_cant": "All payloads.", "anchors": ["dataplicity/m2m/wsclient.py:WSClient.handle_ping"]}
{"id": "C25", "title": "Connection handshake", "statement": "On every (re)connect exactly one packet is sent first: request_identify with the known identity, or request_join if there is none; after a disconnect the identity is forgotten; a closed client ignores set_identity.", "quantifier": "every sequence of connects, disconnects and set_identity packets", "why_tests_cant": "All reconnect histories.", "anchors": ["dataplicity/m2m/wsclient.py:WSClient.on_ready", "dataplicity/m2m/wsclient.py:WSClient.on_disconnected", "dataplicity/m2m/wsclient.py:WSClient.handle_set_identity"]}
{"id": "C26", "title": "The server learns the m2m identity", "statement": "The manager reports an identity to the API each time it is told it until the API acknowledges it; once acknowledged it is not reported again until another identity has been told; an empty or missing identity is never reported.", "quantifier": "every sequence of identities and API outcomes", "why_tests_cant": "All histories of failures and changes.", "anchors": ["dataplicity/m2mmanager.py:M2MManager.set_identity", "dataplicity/client.py:Client.set_m2m_identity"]}
{"id": "C27", "title": "Limiter is exact under concurrency", "statement": "For every interleaving of threads the counter stays within 0 and the limit, equals the number of launches in progress plus running services, loses no update, and decrement never fails.", "quantifier": "every number of threads, every interleaving, every failure of the code run under the limiter", "why_tests_cant": "All thread schedules.", "anchors": ["dataplicity/limiter.py:Limiter", "dataplicity/limiter.py:limiter_context"]}
{"id": "C28", "title": "No slot leaks", "statement": "Whenever no launch is in progress and no service is running the counter is zero, whatever services and launches failed or succeeded before.", "quantifier": "every schedule and every failure pattern", "why_tests_cant": "All schedules.", "anchors": ["dataplicity/limiter.py:limiter_context", "dataplicity/m2m/fileservice.py:FileService.run_service", "dataplicity/m2m/commandservice.py:CommandService.run_service", "dataplicity/portforward.py:Connection.run", "dataplicity/m2m/remoteprocess.py:RemoteProcess.run"]}
{"id": "C29", "title": "Over-limit requests are refused cleanly", "statement": "When the limit is reached (or a thread cannot start) the request starts nothing, tells the peer (busy page, error control or message), closes the channel and leaves the counter unchanged.", "quantifier": "every service kind and limiter state", "why_tests_cant": "All states of the limiter and channel.", "anchors": ["dataplicity/m2m/fileservice.py:FileService.__init__", "dataplicity/m2m/commandservice.py:CommandService.__init__", "dataplicity/m2mmanager.py:Terminal.launch", "dataplicity/portforward.py:Service.connect", "dataplicity/portforward.py:PortForwardManager.redirect_port"]}
{"id": "C30", "title": "File service sends the file", "statement": "The data written to the channel is exactly the file content in order if the channel stays open, and a prefix of it otherwise; each message is non-empty and at most the chunk size; the channel is closed at the end; errors are reported by one control packet.", "quantifier": "every file content, every point at which the channel closes or an I/O error occurs", "why_tests_cant": "All contents, all cut points.", "anchors": ["dataplicity/m2m/fileservice.py:FileService._run_service"]}
{"id": "C31", "title": "Command service relays stdout and completes", "statement": "The data written to the channel is a prefix of the command's stdout, in order; when the command ends, one complete control packet is sent, the channel is closed and the process is not left running.", "quantifier": "every output, every sequence of poll results, every point at which the channel closes", "why_tests_cant": "All schedules of the poll loop.", "anchors": ["dataplicity/m2m/commandservice.py:CommandService._run_service"]}
{"id": "C32", "title": "Echo service returns the data", "statement": "Every data message delivered to an open channel with an echo service is sent back once, unchanged, on the same channel, in order.", "quantifier": "every sequence of messages and channel events", "why_tests_cant": "All histories.", "anchors": ["dataplicity/m2m/echoservice.py:EchoService"]}
{"id": "C33", "title": "Port forward delivers inbound data in order", "statement": "Data arriving on the channel before or after the local connection is established reaches the local socket exactly once and in order, for every interleaving of the receive thread and the connection thread; if the socket breaks the local server has received a prefix.", "quantifier": "every interleaving, every chunking, every send failure", "why_tests_cant": "All schedules and failure points.", "anchors": ["dataplicity/portforward.py:Connection.on_channel_data", "dataplicity/portforward.py:Connection._flush_buffer", "dataplicity/portforward.py:Connection._connect"]}
{"id": "C34", "title": "Port forward connections are independent", "statement": "An error or hang-up on one forwarded connection does not end other connections or prevent new ones.", "quantifier": "every set of connections and every sequence of socket events", "why_tests_cant": "All combinations of connections.", "anchors": ["dataplicity/portforward.py:Connection._run", "dataplicity/portforward.py:PortForwardManager.close_event"]}
{"id": "C35", "title": "Port forward closes when the local server closes", "statement": "When the local server ends the connection, all data it sent has been written to the channel in order and the channel is closed.", "quantifier": "every sequence of socket data ending in end of stream", "why_tests_cant": "All event sequences.", "anchors": ["dataplicity/portforward.py:Connection._run"]}
{"id": "C36", "title": "Service table lookups", "statement": "open on an unknown service or port does nothing; a service registered for a port connects to that port on its host; the four default services map web, ext, extalt and alt to 80, 81, 8000 and 8080.", "quantifier": "every sequence of add_service calls and lookups", "why_tests_cant": "All registration histories.", "anchors": ["dataplicity/portforward.py:PortForwardManager"]}
{"id": "C37", "title": "Remote process termination protocol", "statement": "Closing a terminal process sends SIGHUP at most once; SIGKILL is sent at most once, only if the process is still running 15 seconds or more after the close, and no signal is sent after the process has been reaped.", "quantifier": "every sequence of close calls and every timing of the process exit", "why_tests_cant": "All timings.", "anchors": ["dataplicity/m2m/remoteprocess.py:RemoteProcess.close", "dataplicity/m2m/remoteprocess.py:PidWaitThread.run"]}
{"id": "C38", "title": "Closing the channel ends the process", "statement": "Whenever the channel of a terminal closes, the terminal's process is sent SIGHUP, whatever the relative timing of spawn and close.", "quantifier": "every interleaving of spawn and close", "why_tests_cant": "Race between two threads.", "anchors": ["dataplicity/m2m/remoteprocess.py:RemoteProcess.close", "dataplicity/m2m/proxy.py:Interceptor.spawn"]}
{"id": "C39", "title": "Terminal input is written completely", "statement": "All bytes sent to a terminal reach the pty in order whatever partial writes the OS performs.", "quantifier": "every data and every sequence of partial write sizes", "why_tests_cant": "All partial-write patterns.", "anchors": ["dataplicity/m2m/proxy.py:Interceptor.write_master"]}
{"id": "C40", "title": "Terminal bookkeeping", "statement": "A terminal lists only processes it launched and has not pruned, forgets closed ones on the next launch, and close() closes every one of them even if some fail.", "quantifier": "every history of launches and closes", "why_tests_cant": "All histories.", "anchors": ["dataplicity/m2mmanager.py:Terminal"]}
{"id": "C41", "title": "Instruction handling", "statement": "An instruction performs exactly the action it names with the given arguments, unknown actions and malformed instructions do nothing, and no instruction can crash the agent.", "quantifier": "every instruction dictionary", "why_tests_cant": "All dictionaries with arbitrary bytes keys and values.", "anchors": ["dataplicity/m2mmanager.py:M2MManager.on_instruction", "dataplicity/m2m/wsclient.py:WSClient.on_instruction_packet"]}
{"id": "C42", "title": "Reads are confined to the remote directory", "statement": "add_upload copies only the scan result or a file whose path lies (lexically, after removing . and .. components) inside the remote directory; any path with a .. component is refused.", "quantifier": "every requested path and every remote directory root", "why_tests_cant": "All path strings.", "anchors": ["dataplicity/remote_directory.py:RemoteDirectory.add_upload", "dataplicity/remote_directory.py:validate_path"]}
{"id": "C43", "title": "Snapshot ids are confined to the snapshot directory", "statement": "Opening, reading and closing an upload touches only files inside the agent's snapshot directory, whatever upload id the server sends.", "quantifier": "every upload id", "why_tests_cant": "All id strings.", "anchors": ["dataplicity/remote_directory.py:RemoteDirectory.get_snapshot_path", "dataplicity/remote_directory.py:RemoteDirectory.read_upload", "dataplicity/remote_directory.py:RemoteDirectory.close_upload"]}
{"id": "C44", "title": "Snapshot isolation", "statement": "After a successful open, reads for that upload id return the bytes the file had at open time at the requested offset and size, whatever happens to the original file or to other uploads, until that upload is closed or reopened.", "quantifier": "every file content, every sequence of other operations, every offset and size", "why_tests_cant": "All interleaved histories.", "anchors": ["dataplicity/remote_directory.py:RemoteDirectory.add_upload", "dataplicity/remote_directory.py:RemoteDirectory.read_upload"]}
{"id": "C45", "title": "Reading in chunks reassembles the file", "statement": "Reading an upload with consecutive offsets until a short read and concatenating the results gives exactly the snapshot, of the size announced at open.", "quantifier": "every content and chunk size", "why_tests_cant": "All contents and chunk sizes.", "anchors": ["dataplicity/remote_directory.py:RemoteDirectory.read_upload", "dataplicity/remote_directory.py:RemoteDirectory.on_read_remote_file"]}
{"id": "C46", "title": "Every file request gets one reply", "statement": "Each open, read and write request is answered by exactly one result packet with the request's id, success or failure, whatever fails on the device.", "quantifier": "every request content and every pattern of I/O failures", "why_tests_cant": "All failure patterns.", "anchors": ["dataplicity/remote_directory.py:RemoteDirectory.on_open_remote_file", "dataplicity/remote_directory.py:RemoteDirectory.on_read_remote_file", "dataplicity/remote_directory.py:RemoteDirectory.on_write_remote_file"]}
{"id": "C47", "title": "Chunked writes assemble the file", "statement": "Writing chunks at their offsets, in any order and with repeats of identical data, followed by a final packet, leaves at the destination exactly the intended content.", "quantifier": "every content, every partition into chunks, every order", "why_tests_cant": "All partitions and orders.", "anchors": ["dataplicity/remote_directory.py:RemoteDirectory.on_write_remote_file"]}
{"id": "C48", "title": "A received file never overwrites an existing one", "statement": "Storing a finished download never changes a file that already existed: a free name of the form base(N).ext is chosen with the smallest N, and after 100 taken names the request fails leaving the directory unchanged.", "quantifier": "every directory state", "why_tests_cant": "All sets of existing names.", "anchors": ["dataplicity/remote_directory.py:RemoteDirectory.copy_download"]}
{"id": "C49", "title": "Received files stay inside the remote directory", "statement": "A finished download is stored inside the remote directory, whatever path the server names.", "quantifier": "every destination path", "why_tests_cant": "All path strings.", "anchors": ["dataplicity/remote_directory.py:RemoteDirectory.copy_download"]}
{"id": "C50", "title": "Received files for a missing folder are stored in the root", "statement": "If the destination folder does not exist the file is stored in the remote directory root.", "quantifier": "every destination path whose folder is missing", "why_tests_cant": "All paths and directory states.", "anchors": ["dataplicity/remote_directory.py:RemoteDirectory.copy_download"]}
{"id": "C51", "title": "Disk space margin", "statement": "When usage information is available a snapshot is refused exactly if it would leave less than 50 MB of the disk's total unused, and nothing is written in that case.", "quantifier": "every disk usage and file size", "why_tests_cant": "All sizes.", "anchors": ["dataplicity/remote_directory.py:RemoteDirectory.add_upload", "dataplicity/remote_directory.py:FREE_SPACE_MARGIN"]}
{"id": "C52", "title": "Closing an upload removes only its snapshot", "statement": "close is idempotent, removes the snapshot of that id, leaves every other file alone and never fails.", "quantifier": "every history of opens and closes", "why_tests_cant": "All histories.", "anchors": ["dataplicity/remote_directory.py:RemoteDirectory.close_upload"]}
{"id": "C53", "title": "Directory scan terminates", "statement": "A scan ends for every finite file system, including symbolic link cycles, even without a depth limit.", "quantifier": "every finite directory graph", "why_tests_cant": "All graphs, including cyclic ones.", "anchors": ["dataplicity/scan_directory.py:scan_directory"]}
{"id": "C54", "title": "Scan depth and hidden files", "statement": "A scan never lists a hidden entry nor anything below a hidden directory, and lists no directory more than max_depth - 1 levels below the root.", "quantifier": "every directory graph and depth limit", "why_tests_cant": "All graphs.", "anchors": ["dataplicity/scan_directory.py:scan_directory"]}
{"id": "C55", "title": "Scan is complete on ordinary trees", "statement": "For a directory tree without links or repeated inode numbers, the scan lists exactly the visible files and directories down to the depth limit, each in its own directory with its size.", "quantifier": "every directory tree", "why_tests_cant": "All trees.", "anchors": ["dataplicity/scan_directory.py:scan_directory"]}
{"id": "C56", "title": "Scan reports only what exists", "statement": "Every listed file and directory is an entry of the named directory, and no entry is listed twice in a directory.", "quantifier": "every directory graph", "why_tests_cant": "All graphs.", "anchors": ["dataplicity/scan_directory.py:scan_directory"]}
{"id": "C57", "title": "Scans do not overlap", "statement": "At most one scan runs at a time and success is signalled only after the whole result has been written.", "quantifier": "every interleaving of scan requests and scan threads", "why_tests_cant": "All schedules.", "anchors": ["dataplicity/directory_scanner.py:DirectoryScanner"]}
{"id": "C58", "title": "Every scan request is answered", "statement": "Each scan_remote_directory packet is answered by a result packet, empty on success and with an error otherwise.", "quantifier": "every interleaving of requests and scan outcomes", "why_tests_cant": "All schedules and failures.", "anchors": ["dataplicity/m2m/wsclient.py:WSClient.on_scan_remote_directory", "dataplicity/directory_scanner.py:DirectoryScanner.perform_scan"]}
{"id": "C59", "title": "The scan result file is never torn", "statement": "Whoever reads the scan result file sees a complete result of some scan, also if the agent crashes or a read happens while a scan is being written.", "quantifier": "every crash point and every interleaving of writer and reader", "why_tests_cant": "All crash points.", "anchors": ["dataplicity/directory_scanner.py:DirectoryScanner.write_scan"]}
{"id": "C60", "title": "Call ids are unique", "statement": "All ids handed out by one JSONRPC client for calls and batch calls are distinct and increasing.", "quantifier": "every sequence of calls and batch calls", "why_tests_cant": "All histories.", "anchors": ["dataplicity/jsonrpc.py:JSONRPC.new_call_id", "dataplicity/jsonrpc.py:Batch.call"]}
{"id": "C61", "title": "call returns only the matching result", "statement": "JSONRPC.call returns a value only if the server's response is a JSON-RPC 2.0 object with the id of this call and no error member, and then returns its result member; every other response raises.", "quantifier": "every JSON value the server may return", "why_tests_cant": "All JSON values.", "anchors": ["dataplicity/jsonrpc.py:JSONRPC.call"]}
{"id": "C62", "title": "Server errors are classified", "statement": "An error response raises RemoteError exactly for the five reserved codes and RemoteMethodError otherwise, carrying method, code, data and message with the documented defaults.", "quantifier": "every error object", "why_tests_cant": "All error objects.", "anchors": ["dataplicity/jsonrpc.py:JSONRPC._handle_error"]}
{"id": "C63", "title": "Batch ids are distinct", "statement": "Two calls in one batch never share an id.", "quantifier": "every sequence of call, call_with_id and notify", "why_tests_cant": "All sequences.", "anchors": ["dataplicity/jsonrpc.py:Batch.call", "dataplicity/jsonrpc.py:Batch.call_with_id"]}
{"id": "C64", "title": "Batch results do not depend on response order", "statement": "After a batch is sent, the result or error reported for each call is the one the server gave for that id, in whatever order the server lists the responses.", "quantifier": "every batch and every permutation of the response list", "why_tests_cant": "All permutations.", "anchors": ["dataplicity/jsonrpc.py:Batch.send", "dataplicity/jsonrpc.py:Batch.get_result"]}
{"id": "C65", "title": "A batch is sent at most once and only if complete", "statement": "Leaving the with block sends the batch exactly once, unless the block raised or the batch was abandoned, and then nothing is sent.", "quantifier": "every body of the with block", "why_tests_cant": "All bodies.", "anchors": ["dataplicity/jsonrpc.py:Batch.__exit__"]}
{"id": "C66", "title": "Device metadata is sent until acknowledged", "statement": "Each sync sends authentication and the six metadata calls until one sync in which authentication and all six calls succeed, and never afterwards.", "quantifier": "every sequence of syncs and server responses", "why_tests_cant": "All histories.", "anchors": ["dataplicity/client.py:Client._sync", "dataplicity/client.py:Client._check_meta"]}
{"id": "C67", "title": "Tags are reported when they change", "statement": "Machine tags are sent when they differ from the last list the server accepted, are retried until accepted, and are not resent while unchanged.", "quantifier": "every sequence of tag lists and server outcomes", "why_tests_cant": "All histories.", "anchors": ["dataplicity/client.py:Client.tag_poll"]}
{"id": "C68", "title": "Disk space reports are rate limited", "statement": "Disk space is reported on the first poll and never twice within an hour, whatever the clock does.", "quantifier": "every sequence of poll times and outcomes", "why_tests_cant": "All clock behaviours.", "anchors": ["dataplicity/client.py:Client.disk_poll"]}
{"id": "C69", "title": "Polling never dies", "statement": "A poll always completes without raising whatever the network, the tag script or the disk do, and polling goes on until exit is requested.", "quantifier": "every pattern of failures", "why_tests_cant": "All failure patterns.", "anchors": ["dataplicity/client.py:Client.poll", "dataplicity/client.py:Client.run_forever", "dataplicity/client.py:Client.sync"]}
{"id": "C70", "title": "m2m URL carries the feature list", "statement": "The m2m URL used keeps the configured URL as prefix, and has a query string: the configured one untouched, or the feature list.", "quantifier": "every configured URL", "why_tests_cant": "All strings.", "anchors": ["dataplicity/client.py:Client.__init__"]}
{"id": "C71", "title": "Tag parsing", "statement": "Reported tags are non-empty, at most 25 characters, contain no comma or whitespace, and are the separator-delimited words of the script output in order.", "quantifier": "every script output", "why_tests_cant": "All byte strings.", "anchors": ["dataplicity/tags.py:get_tag_list"]}
{"id": "C72", "title": "Disk usage arithmetic", "statement": "total, used and free are consistent: 0 <= used <= total, used + free <= total, and percent lies between 0 and 100, for any counters the OS can report, also for an empty disk.", "quantifier": "every statvfs result with bavail <= bfree <= blocks", "why_tests_cant": "All counter values.", "anchors": ["dataplicity/disk_tools.py:disk_usage", "dataplicity/disk_tools.py:usage_percent"]}
{"id": "C73", "title": "Interface list parsing", "statement": "The interface list read from the kernel's buffer is exactly the (name, address) pairs the kernel stored, in order.", "quantifier": "every list of interfaces that fits the buffer", "why_tests_cant": "All names and addresses.", "anchors": ["dataplicity/iptool.py:get_all_interfaces"]}
{"id": "C74", "title": "Machine revision parsing", "statement": "The machine revision is the value of the first line of cpuinfo whose key is revision in any case and spacing, and nothing if there is none.", "quantifier": "every file content", "why_tests_cant": "All byte strings.", "anchors": ["dataplicity/rpi.py:get_machine_revision"]}
{"id": "C75", "title": "Metadata cache is private", "statement": "Changing a returned metadata dictionary never changes what later calls return.", "quantifier": "every sequence of get_meta calls and mutations", "why_tests_cant": "Aliasing over all histories.", "anchors": ["dataplicity/device_meta.py:get_meta"]}
{"id": "C76", "title": "Environment integers", "statement": "A limit read from the environment is the integer written there, or the default if it is unset or not an integer.", "quantifier": "every environment value", "why_tests_cant": "All strings.", "anchors": ["dataplicity/constants.py:get_environ_int"]}
{"id": "C77", "title": "Clock jump detection", "statement": "The agent kills itself for a restart exactly when a one second sleep appears to take more than 180 seconds, and never because of smaller changes.", "quantifier": "every sequence of clock readings", "why_tests_cant": "All clock behaviours.", "anchors": ["dataplicity/clockcheck.py:ClockCheckThread.run"]}
{"id": "C78", "title": "Exit status", "statement": "The command exits with 0 exactly if the sub-command succeeds, with 1 without sub-command and -1 after an error, and an unknown log level is reported as an error instead of a crash.", "quantifier": "every argument combination and sub-command outcome", "why_tests_cant": "All combinations.", "anchors": ["dataplicity/app.py:App.run", "dataplicity/app.py:App._init_logging", "dataplicity/app.py:main"]}
{"id": "C79", "title": "The receive thread ends cleanly", "statement": "When the websocket loop ends, the receive thread finishes without an exception.", "quantifier": "every sequence of websocket events", "why_tests_cant": "The tests never run the thread to its end.", "anchors": ["dataplicity/m2m/wsclient.py:WSClient.run"]}
{"id": "C80", "title": "Terminal output is relayed", "statement": "What is printed on a terminal is written to its channel in order, and when the terminal's process ends everything it printed has been written.", "quantifier": "every output, every sequence of reads and poll results, every close time", "why_tests_cant": "All schedules of the reading loop and the exit of the process.", "anchors": ["dataplicity/m2m/proxy.py:Interceptor._copy", "dataplicity/m2m/remoteprocess.py:RemoteProcess.master_read"]}
{"id": "C81", "title": "A terminal's channel closes with its process", "statement": "When the process of a terminal ends, the agent asks for its channel to be closed.", "quantifier": "every history of a terminal", "why_tests_cant": "All histories.", "anchors": ["dataplicity/m2m/proxy.py:Interceptor.spawn", "dataplicity/m2m/remoteprocess.py:RemoteProcess.run"]}
{"id": "C82", "title": "Write requests touch only their download file and the remote directory", "statement": "A write request changes nothing on the device but the download file the agent made for its id and, once final, the file stored in the remote directory, whatever id, device path, offset and path the server sends.", "quantifier": "every write request and every file system state", "why_tests_cant": "All id, device path and destination strings, all offsets.", "anchors": ["dataplicity/remote_directory.py:RemoteDirectory.on_write_remote_file", "dataplicity/remote_directory.py:RemoteDirectory.add_download"]}
{"id": "C83", "title": "The m2m identity is announced only once the server confirmed it", "statement": "Setting the m2m identity returns the identity only if the server acknowledged both authentication and association, never raises, and sends exactly those two calls, or nothing when there is no token or the identity is not text.", "quantifier": "every identity, token, state of the agent and server reply", "why_tests_cant": "All replies and identities.", "anchors": ["dataplicity/client.py:Client.set_m2m_identity"]}
{"id": "C84", "title": "Failed downloads leave no file behind", "statement": "When a write request fails, the download file of the agent is removed and no other file of the device changes.", "quantifier": "every write request and every pattern of I/O failures", "why_tests_cant": "All failure patterns.", "anchors": ["dataplicity/remote_directory.py:RemoteDirectory.on_write_remote_file", "dataplicity/remote_directory.py:RemoteDirectory.copy_download"]}
{"id": "C85", "title": "Terminal window size", "statement": "The window of a running terminal has the size last asked for in a proper resize message, or the initial size, whatever the order of messages and start.", "quantifier": "every sequence of control data and every interleaving with the start of the terminal", "why_tests_cant": "All schedules of two threads.", "anchors": ["dataplicity/m2m/remoteprocess.py:RemoteProcess.on_control", "dataplicity/m2m/proxy.py:Interceptor.resize_terminal", "dataplicity/m2m/proxy.py:Interceptor._set_pty_size", "dataplicity/m2m/proxy.py:Interceptor.spawn"]}
{"id": "C86", "title": "Improper control data are harmless", "statement": "Control data that are not a proper resize message change neither the window nor the life of the terminal.", "quantifier": "every control data and every state of the terminal", "why_tests_cant": "All JSON values and states.", "anchors": ["dataplicity/m2m/remoteprocess.py:RemoteProcess.on_control", "dataplicity/m2m/proxy.py:Interceptor._set_pty_size"]}
{"id": "C87", "title": "Notifications are sent once and their answers ignored", "statement": "JSONRPC.notify sends exactly one request, a notification without id, uses up no call id, and returns whatever text the server answers; it raises only if the server cannot be reached.", "quantifier": "every method, parameters, state of the client and server answer", "why_tests_cant": "The answer is any text and the state any history of calls; tests use a few.", "anchors": ["dataplicity/jsonrpc.py:JSONRPC.notify", "dataplicity/jsonrpc.py:JSONRPC._send"]}
{"id": "C88", "title": "check passes exactly if every call got a result", "statement": "After a batch was sent, Batch.check of some ids passes exactly if the server's list has a result for each of them, and otherwise raises the exception of the first id that has none.", "quantifier": "every batch, every list of responses, every list of ids", "why_tests_cant": "Lists of responses and ids are unbounded, in any order, with duplicates and missing ones.", "anchors": ["dataplicity/jsonrpc.py:Batch.check", "dataplicity/jsonrpc.py:Batch.get_result"]}
{"id": "C89", "title": "Without a usable tag script", "statement": "If there is no tag script or it cannot be run the tag list is empty, and if it fails no list is reported and the list last accepted stays as it is, so that after the script recovers the same list is not sent again.", "quantifier": "every history of polls, every server outcome", "why_tests_cant": "What is remembered depends on the whole history of polls and server answers.", "anchors": ["dataplicity/tags.py:get_tag_list", "dataplicity/client.py:Client.tag_poll"]}
{"id": "C90", "title": "Every poll tries all three reports", "statement": "A poll does a disk poll, a tag poll and a sync, in this order, whatever fails before: a failure of one never keeps the others from being tried.", "quantifier": "every pattern of failures and every state of the agent", "why_tests_cant": "The combinations of failures of disk, script, server and metadata with histories are unbounded.", "anchors": ["dataplicity/client.py:Client.poll"]}
{"id": "C91", "title": "A packet never lands on another channel", "statement": "Whenever write, send_control or close on a channel sends a packet with number n, no other channel object is registered for n at that moment.", "quantifier": "every interleaving of the receive thread with any number of threads using channels", "why_tests_cant": "It takes a close and a reopening between the test of is_closed and the sending; tests do not hit such schedules, let alone all of them.", "anchors": ["dataplicity/m2m/wsclient.py:Channel.write", "dataplicity/m2m/wsclient.py:Channel.send_control", "dataplicity/m2m/wsclient.py:Channel.close", "dataplicity/m2m/wsclient.py:WSClient.on_notify_close"]}
{"id": "C92", "title": "Blocking reads", "statement": "When several threads read from a channel while data arrives, no bytes are lost, duplicated or reordered, no wake-up is lost, and a blocking read that did not time out returns at least one byte.", "quantifier": "every interleaving, any number of readers, all messages and counts", "why_tests_cant": "The interleavings of event, lock and deque are unbounded in number.", "anchors": ["dataplicity/m2m/wsclient.py:Channel.read", "dataplicity/m2m/wsclient.py:Channel.on_data"]}
{"id": "C93", "title": "A service gets all data of its channel", "statement": "All data routed to a channel reaches the data callback of the service on it, in the order of arrival, also what arrived before the service installed its callback.", "quantifier": "every session, every callback behaviour that does not replace the callbacks", "why_tests_cant": "It speaks about every order of arrival and installation and about arbitrary callbacks that use the client.", "anchors": ["dataplicity/m2m/wsclient.py:Channel.set_callbacks", "dataplicity/m2m/wsclient.py:Channel.on_data"]}
{"id": "C94", "title": "Credentials and settings at the start", "statement": "The agent runs with the serial, token, server and remote directory given on the command line, or if one is not given or empty with the stripped text of its file or the default; if a needed file cannot be read or decoded, it fails before any connection is started.", "quantifier": "all command lines, file contents and failures of the host", "why_tests_cant": "File contents, encodings, line ends and white space are unbounded; tests use a few.", "anchors": ["dataplicity/client.py:Client.__init__", "dataplicity/client.py:Client._read", "dataplicity/client.py:Client._init", "dataplicity/app.py:App.make_client"]}
{"id": "C95", "title": "Instructions during the start", "statement": "An instruction is carried out in the same way whenever it arrives, also while the agent is still starting.", "quantifier": "every moment of the start after the m2m thread runs, every instruction", "why_tests_cant": "The race between the starting thread and the m2m thread is not reproducible in tests.", "anchors": ["dataplicity/m2mmanager.py:M2MManager.init", "dataplicity/client.py:Client._init", "dataplicity/m2mmanager.py:M2MManager.on_instruction"]}
{"id": "C96", "title": "Syncs of several threads", "statement": "Requests of syncs never overlap, no metadata is sent once the server acknowledged all of it, every sync before that sends it, and the lock is given back however the request ends.", "quantifier": "every interleaving of any number of threads calling sync, every answer", "why_tests_cant": "The interleavings of polls and sync instructions are unbounded.", "anchors": ["dataplicity/client.py:Client.sync", "dataplicity/client.py:Client._sync", "dataplicity/client.py:Client._check_meta"]}
{"id": "C97", "title": "A sync instruction does not block receiving", "statement": "A thread that is told to sync, in particular the one that receives packets, gets through without waiting for the answer to another thread's request.", "quantifier": "every interleaving", "why_tests_cant": "It is about what no schedule can achieve while the server is silent.", "anchors": ["dataplicity/client.py:Client.sync", "dataplicity/m2mmanager.py:M2MManager.on_instruction"]}
{"id": "C98", "title": "Calls made for messages", "statement": "Over a session the manager's instruction callback and the methods of the remote directory are called for exactly the messages that ask for it, in order, once each, with the values they carry; while the call lasts the client only sends and reads.", "quantifier": "every session: every sequence of websocket events and uses of the client, every behaviour of the callees", "why_tests_cant": "A test shows one message dispatched once; that nothing else in any session triggers a call is about all of them.", "anchors": ["dataplicity/m2m/wsclient.py:WSClient.on_instruction_packet", "dataplicity/m2m/wsclient.py:WSClient.on_open_remote_file", "dataplicity/m2m/wsclient.py:WSClient.on_write_remote_file"]}
{"id": "C99", "title": "File requests answered on the wire", "statement": "Every request for a file in a message is answered by exactly one message that the peer understands and that says what happened.", "quantifier": "every session, every request, every state of the files, every failing system call", "why_tests_cant": "The files a request meets depend on all requests before it and on other programs.", "anchors": ["dataplicity/m2m/wsclient.py:WSClient.on_read_remote_file", "dataplicity/remote_directory.py:RemoteDirectory.on_read_remote_file", "dataplicity/remote_directory.py:RemoteDirectory.on_write_remote_file"]}
{"id": "C100", "title": "Deeds only as instructed", "statement": "What the manager does over a session (syncs, terminals, services, port connections, reboots, commands) is what the instruction messages ask for, in order, at most one each; no other message makes it do any of it.", "quantifier": "every session", "why_tests_cant": "The absence of any other way to reboot the device or start a service cannot be sampled.", "anchors": ["dataplicity/m2m/wsclient.py:WSClient.on_instruction_packet", "dataplicity/m2mmanager.py:M2MManager.on_instruction"]}
{"id": "C101", "title": "Fetching a file over the wire", "statement": "When the messages that open a file and read consecutive chunks of it until a short one are all answered with success, the chunks put together are the file asked for as it was when it was opened, of the size announced, provided nothing in between names the snapshot of this upload.", "quantifier": "every session, every file, every chunk size, every interleaving with other messages, uses of the client and other programs", "why_tests_cant": "It is about arbitrary content in arbitrarily many chunks, with anything in between.", "anchors": ["dataplicity/m2m/wsclient.py:WSClient.on_open_remote_file", "dataplicity/m2m/wsclient.py:WSClient.on_read_remote_file", "dataplicity/remote_directory.py:RemoteDirectory.add_upload", "dataplicity/remote_directory.py:RemoteDirectory.read_upload"]}
{"id": "C102", "title": "Storing a file over the wire", "statement": "When the messages that write a file in chunks (in any order, the first without device path, the last marked as final) are all answered with success, the file stored is the content, under a name that was free, and the final message changes no other file, provided nothing in between names the download file; without interference all of them are answered with success.", "quantifier": "every session, every content cut into any chunks, every interleaving with other messages, uses of the client and other programs", "why_tests_cant": "It is about arbitrary content in arbitrarily many chunks in any order, with anything in between.", "anchors": ["dataplicity/m2m/wsclient.py:WSClient.on_write_remote_file", "dataplicity/remote_directory.py:RemoteDirectory.on_write_remote_file", "dataplicity/remote_directory.py:RemoteDirectory.copy_download"]}
{"id": "C103", "title": "Reads stay inside the remote directory, links included", "statement": "On a file system with symbolic links, opening a file copies only a file of the remote directory (or the scan result) and on success announces its size.", "quantifier": "every file system with links, every path, every upload id, every schedule of failing system calls", "why_tests_cant": "Link chains, relative and absolute targets and loops in every position cannot be enumerated by tests; the confinement is about all paths.", "anchors": ["dataplicity/remote_directory.py:RemoteDirectory.add_upload", "dataplicity/remote_directory.py:RemoteDirectory.get_snapshot_path"]}
{"id": "C104", "title": "Stored files stay inside the remote directory, links included", "statement": "On a file system with symbolic links, storing a download changes nothing outside the remote directory but the download itself, and on success puts its content at a place in the directory where nothing was.", "quantifier": "every file system with links, every path without backward references, every schedule of failing system calls", "why_tests_cant": "The move has four ways through (rename, second rename, copy, relinking), each of which treats links in its own way.", "anchors": ["dataplicity/remote_directory.py:RemoteDirectory.copy_download"]}
{"id": "C105", "title": "Storing replaces nothing, links and other programs included", "statement": "Storing a download neither replaces nor changes any file, folder or link that exists when it is put in place.", "quantifier": "every file system with links, every interference of other programs between system calls, every schedule of failing system calls", "why_tests_cant": "The window between the check and the rename is microseconds wide, and links to nothing are rare.", "anchors": ["dataplicity/remote_directory.py:RemoteDirectory.copy_download"]}
{"id": "C106", "title": "A scan changes only its own result file", "statement": "Writing the result of a scan changes no file but the result file in the temporary directory.", "quantifier": "every file system with links, every scan result, every schedule of failing system calls", "why_tests_cant": "It takes a hostile state of the temporary directory, which tests do not set up.", "anchors": ["dataplicity/directory_scanner.py:DirectoryScanner.write_scan"]}
{"id": "C107", "title": "Call ids taken by several threads", "statement": "Whatever threads make calls through one JSONRPC object, no two of its calls carry the same id.", "quantifier": "every number of threads, every interleaving of the steps of their calls of new_call_id", "why_tests_cant": "The window between reading, writing and reading again is a few bytecodes wide; a test meets it by luck only.", "anchors": ["dataplicity/jsonrpc.py:JSONRPC.new_call_id"]}
{"id": "C108", "title": "The peer of a channel hears what is said through it", "statement": "While a channel is open and no callback uses it, the data, control and close messages that carry its number are exactly what the threads of the agent say through the channel, in the order they say it, whatever other channels, messages from the server and callbacks do in the meantime.", "quantifier": "every reachable state, every sequence of events and operations, every behaviour of callbacks that leave the channel alone, every websocket failure", "why_tests_cant": "A message for the wrong channel needs a particular interleaving of opened, closed and reused numbers.", "anchors": ["dataplicity/m2m/wsclient.py:Channel.write", "dataplicity/m2m/wsclient.py:Channel.send_control", "dataplicity/m2m/wsclient.py:Channel.close", "dataplicity/m2m/wsclient.py:WSClient.send", "dataplicity/m2m/wsclient.py:WSClient.get_channel", "dataplicity/m2m/wsclient.py:WSClient.on_notify_close"]}
{"id": "C109", "title": "Files and output of commands on the wire", "statement": "The data heard on the number of a file service's channel are a prefix of the file, and once the service has ended with its channel open, the whole file and then the close, or a part, one error message and the close; the data heard on the channel of a command are a prefix of its output.", "quantifier": "every file, chunk size and schedule of failures, every session of the client around the service", "why_tests_cant": "It composes two layers that tests exercise apart, over all interleavings with other channels.", "anchors": ["dataplicity/m2m/fileservice.py:FileService._run_service", "dataplicity/m2m/commandservice.py:CommandService._run_service", "dataplicity/m2m/wsclient.py:Channel.write"]}
{"id": "C110", "title": "The peer of a port forward hears the local server's stream", "statement": "While its channel is open, the messages with the number of a port forward's channel are exactly the bytes received from the local server, in order and in non-empty pieces of at most CHUNK_SIZE, and then at most one close; the close is there once the connection's thread has ended, unless the clock shows no time since its start.", "quantifier": "every interleaving of the connection's threads, the receiving thread and all other threads and channels, every result of connect, poll, recv and send", "why_tests_cant": "It composes the receive loop with the client over all interleavings; tests run each alone.", "anchors": ["dataplicity/portforward.py:Connection._run", "dataplicity/m2m/wsclient.py:Channel.write", "dataplicity/m2m/wsclient.py:Channel.close"]}
{"id": "C111", "title": "The local server of a port forward gets what the peer sent", "statement": "The connection is handed exactly the data routed to its channel's number while the channel is open, and is told when it is closed; the local server has a prefix of that data, and all of it once nothing is under way.", "quantifier": "every interleaving of the connection's threads, the receiving thread and all other threads and channels, every result of connect and sendall", "why_tests_cant": "Loss needs a certain schedule of the receiving thread, the connection thread and the socket.", "anchors": ["dataplicity/portforward.py:Connection.on_channel_data", "dataplicity/portforward.py:Connection.on_channel_close", "dataplicity/portforward.py:Connection._flush_buffer", "dataplicity/m2m/wsclient.py:Channel.on_data", "dataplicity/m2m/wsclient.py:WSClient.handle_route"]}
{"id": "C112", "title": "The peer of a terminal hears what is printed", "statement": "While its channel is open, the data messages with the number of a terminal's channel, followed by what has not been read from the terminal yet, are exactly what was printed on it since it was created; the other messages with that number are the closes the terminal asked for.", "quantifier": "every interleaving of the process thread, the wait threads, the child, the receiving thread and all other threads and channels", "why_tests_cant": "Output can be lost, doubled or sent to another channel only in certain interleavings.", "anchors": ["dataplicity/m2m/proxy.py:Interceptor._copy", "dataplicity/m2m/remoteprocess.py:RemoteProcess.master_read", "dataplicity/m2m/wsclient.py:Channel.write"]}
{"id": "C113", "title": "A terminal gets what the peer typed", "statement": "The terminal has accepted, in order, all the data routed to its channel's number while the channel is open.", "quantifier": "every interleaving as in C112, every schedule of partial and failing writes", "why_tests_cant": "Lost input needs data that arrives at a certain point of the start, or a failing write.", "anchors": ["dataplicity/m2m/remoteprocess.py:RemoteProcess.on_data", "dataplicity/m2m/proxy.py:Interceptor.write_master", "dataplicity/m2m/wsclient.py:WSClient.handle_route"]}
{"id": "C114", "title": "Closing the channel hangs up the terminal", "statement": "When the channel of a terminal is closed, by the peer or by the end of the connection, its process gets SIGHUP; it gets at most one SIGHUP and one SIGKILL, and no other process gets any.", "quantifier": "every interleaving as in C112", "why_tests_cant": "The moment between the fork and the assignment of the pid cannot be hit by a test.", "anchors": ["dataplicity/m2m/remoteprocess.py:RemoteProcess.on_close", "dataplicity/m2m/remoteprocess.py:RemoteProcess.close", "dataplicity/m2m/wsclient.py:WSClient.on_notify_close", "dataplicity/m2m/wsclient.py:WSClient.on_disconnected"]}
{"id": "C115", "title": "An instruction connects its service to the peer", "statement": "After an instruction that opens a terminal, an echo, a port forward, a file or a command on channel n, and whose thread starts, n stands for an open channel that has the callbacks of the service for data, closing and controls; nothing is said to the peer.", "quantifier": "every session before, every instruction, every manager and every behaviour of the other callbacks", "why_tests_cant": "It depends on what happened to the channel's number before, also in earlier connections.", "anchors": ["dataplicity/m2mmanager.py:Terminal.launch", "dataplicity/m2mmanager.py:M2MManager.on_instruction", "dataplicity/m2m/wsclient.py:WSClient.get_channel", "dataplicity/portforward.py:Service.connect", "dataplicity/m2m/echoservice.py:EchoService.__init__"]}
{"id": "C116", "title": "A refused request is answered on its channel", "statement": "When the limit is reached or the thread of a service cannot be started, the peer hears on the channel it asked for the refusal that belongs to the kind of request, then the closing, and nothing else.", "quantifier": "every session before, every instruction under a limiter, both ways to fail", "why_tests_cant": "Failing to start a thread, and channel numbers left from earlier connections, are not produced by tests.", "anchors": ["dataplicity/m2mmanager.py:Terminal.launch", "dataplicity/portforward.py:Service.connect", "dataplicity/portforward.py:PortForwardManager.redirect_port", "dataplicity/m2m/fileservice.py:FileService.__init__", "dataplicity/m2m/commandservice.py:CommandService.__init__"]}
{"id": "C117", "title": "The peer of an echo service hears what it sent", "statement": "While the channel is open, the peer of an echo service has heard exactly the messages it sent on the channel, each once and in order.", "quantifier": "every interleaving of the receiving thread and everything else in the client", "why_tests_cant": "All interleavings with other channels, services and threads.", "anchors": ["dataplicity/m2m/echoservice.py:EchoService.on_data", "dataplicity/m2m/wsclient.py:Channel.on_data", "dataplicity/m2m/wsclient.py:Channel.write"]}
{"id": "C118", "title": "Terminals and services do not take each other's slots", "statement": "The count of each limiter stays within its limit and depends only on requests and endings under that limiter; a request is refused as full exactly if its own limiter is full, and an echo never.", "quantifier": "every sequence of requests and endings, every pair of limits", "why_tests_cant": "All sequences.", "anchors": ["dataplicity/m2mmanager.py:M2MManager.__init__", "dataplicity/m2mmanager.py:M2MManager.on_instruction", "dataplicity/limiter.py:Limiter"]}
{"id": "C119", "title": "A terminal runs with the configured user and group", "statement": "The program of a terminal has exactly the user and group ids of the configured user and group, can not regain others, and has no groups of the agent left.", "quantifier": "every user and group database, every configuration, every agent's ids", "why_tests_cant": "Needs a process started as root and databases without the configured names.", "anchors": ["dataplicity/m2m/proxy.py:Interceptor.spawn", "dataplicity/m2mmanager.py:Terminal.launch"]}
{"id": "C120", "title": "A terminal runs the configured program, or its process ends", "statement": "What is executed is the configured command, without one the user's shell; if that is not possible the forked process ends.", "quantifier": "every command, every outcome of exec, every state of the limiter's lock at the fork", "why_tests_cant": "What another thread holds at the moment of the fork cannot be arranged.", "anchors": ["dataplicity/m2m/proxy.py:Interceptor.spawn", "dataplicity/m2m/remoteprocess.py:RemoteProcess.run", "dataplicity/limiter.py:Limiter.decrement"]}
{"id": "C121", "title": "Finished terminal processes are collected", "statement": "A process of a terminal that has ended is waited for, so that it does not stay as a zombie.", "quantifier": "every interleaving of the process thread, the wait threads, the child and the channel", "why_tests_cant": "Only certain orders of exit and close leave it uncollected.", "anchors": ["dataplicity/m2m/remoteprocess.py:RemoteProcess.close", "dataplicity/m2m/remoteprocess.py:PidWaitThread.run"]}
{"id": "C122", "title": "The descriptor of a terminal is closed", "statement": "When the thread of a terminal is over, the terminal's descriptor is closed.", "quantifier": "every interleaving, every failing system call", "why_tests_cant": "Needs failures of ioctl or of sending at certain points.", "anchors": ["dataplicity/m2m/proxy.py:Interceptor.spawn", "dataplicity/m2m/proxy.py:Interceptor._copy"]}
{"id": "C123", "title": "An interrupt ends the agent", "statement": "Wherever the main thread is when the user interrupts it, it does nothing more than clean up, and the agent ends.", "quantifier": "every point of every poll, every sequence of failures before and polls before", "why_tests_cant": "An interrupt can come at any of the statements of any poll.", "anchors": ["dataplicity/client.py:Client.run_forever", "dataplicity/client.py:Client._sync_meta", "dataplicity/jsonrpc.py:Batch.send", "dataplicity/app.py:App.run"]}
{"id": "C124", "title": "exit() ends the agent after the poll it is in", "statement": "After exit() was called the agent starts no poll (but a first one) and ends.", "quantifier": "every moment of the call, every sequence of failures and interrupts", "why_tests_cant": "All moments relative to the polls.", "anchors": ["dataplicity/client.py:Client.run_forever", "dataplicity/client.py:Client.exit"]}
{"id": "C125", "title": "No thread but the main one keeps the agent's process alive", "statement": "Every thread the agent ever has is a daemon, except the main one; so the process ends when the main thread does.", "quantifier": "every sequence of thread starts and ends", "why_tests_cant": "Daemon flags are inherited from the thread that makes a thread.", "anchors": ["dataplicity/m2m/wsclient.py:ThreadedWSClient", "dataplicity/clockcheck.py:ClockCheckThread", "dataplicity/m2m/remoteprocess.py:PidWaitThread", "dataplicity/m2mmanager.py:Terminal.launch"]}
{"id": "C126", "title": "The agent's locks never deadlock", "statement": "At any time every thread of the agent has ended, can go on, or waits for a lock that is held by a thread of which the same can be said; no two threads are inside the same lock, and a lock nobody is inside of is free, also after exceptions.", "quantifier": "every number of threads, every interleaving, every exception", "why_tests_cant": "All interleavings of any number of services.", "anchors": ["dataplicity/limiter.py:Limiter", "dataplicity/limiter.py:limiter_context", "dataplicity/portforward.py:Connection", "dataplicity/portforward.py:Service", "dataplicity/m2m/wsclient.py:Channel", "dataplicity/m2m/wsclient.py:WSClient", "dataplicity/client.py:Client.sync", "dataplicity/directory_scanner.py:DirectoryScanner.perform_scan"]}
{"id": "C127", "title": "No thread keeps a lock for ever by itself", "statement": "A thread that goes on for ever is, again and again, inside no lock.", "quantifier": "every infinite execution of any number of threads", "why_tests_cant": "Infinite executions.", "anchors": ["dataplicity/limiter.py:limiter_context", "dataplicity/portforward.py:Connection", "dataplicity/m2m/wsclient.py:Channel", "dataplicity/client.py:Client.sync", "dataplicity/directory_scanner.py:DirectoryScanner.perform_scan"]}
{"id": "C128", "title": "The interpreter's limits only refuse data", "statement": "With CPython's limits on nested calls and on the digits of numbers, decoding ends as without them or with RecursionError or ValueError; data with fewer opening bytes than calls are left, and no more digits than allowed, is decoded as without limits; nothing hangs that does not hang anyway.", "quantifier": "every input, every number of calls left, every limit of digits", "why_tests_cant": "All inputs at all depths of the stack.", "anchors": ["dataplicity/m2m/bencode.py:_decode", "dataplicity/m2m/bencode.py:decode"]}
{"id": "C129", "title": "The interpreter's limits change a session only by losing messages", "statement": "Whatever is left of the limits when each message comes, the client does exactly what it does without limits when the refused messages never come.", "quantifier": "every session, every environment, every state, limits varying from message to message", "why_tests_cant": "All sessions.", "anchors": ["dataplicity/m2m/wsclient.py:WSClient.on_binary", "dataplicity/m2m/bencode.py:decode"]}
{"id": "C130", "title": "What the client keeps is what it got", "statement": "Over all channel objects, bytes waiting plus bytes read are the bytes queued; the bytes waiting are never more than the bytes routed to channels, nor these more than the bytes of the messages received; and there are never more channel objects than messages and explicit openings, when the callees open none.", "quantifier": "every session, every environment", "why_tests_cant": "All sessions and all interleavings of reads and messages.", "anchors": ["dataplicity/m2m/wsclient.py:Channel.on_data", "dataplicity/m2m/wsclient.py:Channel.read", "dataplicity/m2m/wsclient.py:WSClient.get_channel"]}
{"id": "C131", "title": "Queued data is released when the connection drops", "statement": "After the connection dropped, the client holds no data of the old connection's channels.", "quantifier": "every session", "why_tests_cant": "All sessions.", "anchors": ["dataplicity/m2m/wsclient.py:WSClient.on_disconnected", "dataplicity/m2m/wsclient.py:WSClient.hard_close_channels", "dataplicity/m2m/wsclient.py:WSClient.on_notify_close"]}
{"id": "C132", "title": "A service keeps its channel until it is closed", "statement": "From when a terminal, echo service or port forward is connected to an open channel until the channel is closed, what the peer sends on the channel and its closing reach that service.", "quantifier": "every session, every interleaving, every service", "why_tests_cant": "All sessions and interleavings; tests open one service per channel.", "anchors": ["dataplicity/m2mmanager.py:M2MManager.open_terminal", "dataplicity/m2mmanager.py:M2MManager.open_echo_service", "dataplicity/m2m/wsclient.py:Channel.set_callbacks", "dataplicity/portforward.py:Connection.__init__"]}
{"id": "C133", "title": "A directory scan fails only when reading a directory fails", "statement": "A scan of an existing directory fails only if reading some directory breaks off part-way: directories that cannot be opened and entries whose kind or size cannot be determined never make it fail, and it never fails by its own bookkeeping.", "quantifier": "every file system, depth limit and option", "why_tests_cant": "All file systems and failures of the operating system.", "anchors": ["dataplicity/scan_directory.py:scan_directory"]}
{"id": "C134", "title": "A port forward whose local server cannot be reached is closed", "statement": "When the connection to the local server cannot be established, the connection's thread ends by itself, nothing of the server's stream is taken, and the peer hears the closing of its channel and nothing else, unless the clock shows no time since the start.", "quantifier": "every session, every interleaving", "why_tests_cant": "All sessions and interleavings; tests connect to a server that is there.", "anchors": ["dataplicity/portforward.py:Connection._run", "dataplicity/portforward.py:Connection._connect"]}
{"id": "C135", "title": "A terminal's callbacks touch no other descriptor", "statement": "What the peer types into a terminal, and the window size it asks for, is done to the pty of that terminal and to nothing else that is open in the agent's process.", "quantifier": "every number of terminals, every interleaving of their threads with the receiving thread, every way the kernel gives out free numbers", "why_tests_cant": "All interleavings; the window between closing a descriptor and forgetting its number is a few instructions wide.", "anchors": ["dataplicity/m2m/proxy.py:Interceptor.spawn", "dataplicity/m2m/proxy.py:Interceptor.write_master", "dataplicity/m2m/proxy.py:Interceptor._set_pty_size"]}
{"id": "C136", "title": "A sync that waits for the server stops no other thread", "statement": "While one thread syncs, however long the server takes to answer, every other thread that has not ended can go on by itself or waits for threads that can; only threads that want to sync too have to wait for it, and packets are still handled.", "quantifier": "every interleaving of any number of threads; a sync of any length, also without end", "why_tests_cant": "Needs a server that never answers and all interleavings.", "anchors": ["dataplicity/client.py:Client.sync", "dataplicity/m2mmanager.py:M2MManager.on_instruction", "dataplicity/jsonrpc.py:JSONRPC.call"]}
{"id": "C137", "title": "The credentials are used for nothing but authentication", "statement": "Every request to the API authenticates first; with another serial and auth token and the same answers the agent does the same, ends up in the same state and sends the same requests but for the credentials in that first call.", "quantifier": "every history of polls, syncs and identities, all answers, all pairs of credentials", "why_tests_cant": "It compares pairs of runs (noninterference).", "anchors": ["dataplicity/client.py:Client.disk_poll", "dataplicity/client.py:Client.tag_poll", "dataplicity/client.py:Client._sync", "dataplicity/client.py:Client.set_m2m_identity", "dataplicity/jsonrpc.py:Batch"]}
{"id": "C138", "title": "Logging takes the level and the place asked for", "statement": "Once logging is set up, a record of any logger is written exactly if its level is at least the one asked for (CRITICAL with --quiet), and exactly once, to the log file if one is given and else to stderr; setting up fails exactly when the command line does (C78).", "quantifier": "all arguments, all loggers and levels", "why_tests_cant": "All strings and levels, any set of loggers made before.", "anchors": ["dataplicity/app.py:App._init_logging"]}
{"id": "C139", "title": "The command line means what it says", "statement": "Options before the sub-command, in any of the ways argparse lets them be written (long, abbreviated, short, joined, several letters in one word), take effect: each setting has the last value given for it or its default, each switch is on exactly if given, and client and logging are set up with them. Any other command line ends the program with status 0 or 2, also a value that looks like an option and anything after the sub-command; no value comes from anywhere but the command line; the hint to run the same line after --debug changes nothing else.", "quantifier": "all command lines", "why_tests_cant": "All lists of words of any length and all values.", "anchors": ["dataplicity/app.py:App._make_arg_parser", "dataplicity/app.py:App.run", "dataplicity/app.py:App.make_client"]}
{"id": "C140", "title": "Services send at most 1 MiB at a time", "statement": "One message that a port forward, a terminal, the file service or the command service writes to its channel carries at most 1024 * 1024 bytes, and that much can occur; a port forward writes no empty message. Written to a channel it becomes at most one websocket message, longer than the data by the digits of its length and of the channel's number and at most 9 bytes: on a channel whose number has k digits at most 1 MiB + k + 16 bytes.", "quantifier": "all states of the services, all data and all channel numbers", "why_tests_cant": "Data of any length, any channel number, any state and any behaviour of the operating system.", "anchors": ["dataplicity/constants.py:CHUNK_SIZE", "dataplicity/portforward.py:Connection._run", "dataplicity/m2m/proxy.py:Interceptor._copy", "dataplicity/m2m/fileservice.py:FileService._run_service", "dataplicity/m2m/commandservice.py:CommandService._run_service", "dataplicity/m2m/wsclient.py:Channel.write"]}
{"id": "C141", "title": "The server is told the device's metadata as they are", "statement": "The metadata of a sync are the device's at the time of the sync (version, revision, model, operating system, uname, addresses), so that once the server has accepted a sync it knows the device as it was then.", "quantifier": "all histories of polls, syncs and identities, all states of the device and all replies of the server", "why_tests_cant": "Histories of any length in which the device changes between syncs and the server accepts or refuses in any order.", "anchors": ["dataplicity/device_meta.py:get_meta", "dataplicity/client.py:Client._sync", "dataplicity/client.py:Client._sync_meta", "dataplicity/client.py:Client._check_meta"]}
{"id": "C142", "title": "What polling tells the server", "statement": "Every request that polls and identity announcements send to the JSON-RPC server is one of five: the total and used bytes of the root file system, the tags (words of the tag script's output, cut at 25 characters, or none without a usable script), the metadata of the host, the mere authentication, an identity that was announced. What the first three say was so on the device at the time of one of the operations. The first poll of an agent sends all three.", "quantifier": "all histories of polls and identity announcements in any order, all states of the device at each of them, all replies of the server", "why_tests_cant": "Histories of any length, in which device and server do anything at each step.", "anchors": ["dataplicity/client.py:Client.poll", "dataplicity/client.py:Client.disk_poll", "dataplicity/client.py:Client.tag_poll", "dataplicity/client.py:Client._sync", "dataplicity/tags.py:get_tag_list", "dataplicity/disk_tools.py:disk_usage"]}
{"id": "C143", "title": "Services that have ended let go of their channel", "statement": "When a command or file service that was launched has ended, its channel was closed by the other side or the service has asked for its closing.", "quantifier": "all commands, outputs, paths and contents; all failures of the operating system and of the websocket, and all times at which the other side closes the channel", "why_tests_cant": "Failures at every step in any combination, for outputs of any length.", "anchors": ["dataplicity/m2m/commandservice.py:CommandService.run_service", "dataplicity/m2m/commandservice.py:CommandService._run_service", "dataplicity/m2m/fileservice.py:FileService.run_service", "dataplicity/m2m/fileservice.py:FileService._run_service"]}
