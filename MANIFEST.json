{
 "claims": [
  {
   "property": "C01",
   "status": "proved",
   "theorems": [
    "C01_bencode_round_trip"
   ],
   "note": "All encodable values of the modelled universe; py_object only says keys are distinct and byte strings are shorter than 2^63."
  },
  {
   "property": "C02",
   "status": "proved",
   "theorems": [
    "C02_bencode_canonical"
   ],
   "note": ""
  },
  {
   "property": "C03",
   "status": "proved",
   "theorems": [
    "C03_bencode_self_delimiting",
    "C03_bencode_prefix_free"
   ],
   "note": ""
  },
  {
   "property": "C04",
   "status": "proved",
   "theorems": [
    "C04_bencode_domain"
   ],
   "note": ""
  },
  {
   "property": "C05",
   "status": "partial",
   "theorems": [
    "C05_decode_finishes_refuted",
    "C05_decode_finishes_partial",
    "C05_hang_needs_open_size_partial"
   ],
   "note": "False as stated: an unterminated string size hangs the decoder (witness b\"5\"). Proved: exact grammar of the hanging inputs."
  },
  {
   "property": "C06",
   "status": "partial",
   "theorems": [
    "C06_malformed_decode_error_refuted",
    "C06_malformed_exceptions_partial"
   ],
   "note": "False as stated (ValueError, TypeError, OverflowError witnesses). Proved: these and DecodeError are the only exceptions."
  },
  {
   "property": "C07",
   "status": "proved",
   "theorems": [
    "C07_truncated_list_rejected"
   ],
   "note": ""
  },
  {
   "property": "C08",
   "status": "proved",
   "theorems": [
    "C08_decode_no_amplification"
   ],
   "note": ""
  },
  {
   "property": "C09",
   "status": "proved",
   "theorems": [
    "C09_packet_round_trip"
   ],
   "note": "All 46 packet classes; same_data identifies a tuple with a list and text with its UTF-8 bytes, as the wire does."
  },
  {
   "property": "C10",
   "status": "proved",
   "theorems": [
    "C10_never_half_initialised"
   ],
   "note": ""
  },
  {
   "property": "C11",
   "status": "proved",
   "theorems": [
    "C11_one_class_per_type",
    "C11_registration_succeeds"
   ],
   "note": ""
  },
  {
   "property": "C12",
   "status": "partial",
   "theorems": [
    "C12_from_bytes_only_packet_error_refuted",
    "C12_from_bytes_outcomes_partial"
   ],
   "note": "False as stated (IndexError for b\"le\", decoder exceptions, hang). Proved: exact list of outcomes."
  },
  {
   "property": "C13",
   "status": "proved",
   "theorems": [
    "C13_packet_reaches_its_handler",
    "C13_message_runs_handler_once",
    "C13_message_makes_its_call",
    "C13_failed_scan_is_reported",
    "C13_informing_messages",
    "C13_login_sets_user"
   ],
   "note": "Handler table stated independently; every packet class, all argument lists."
  },
  {
   "property": "C14",
   "status": "partial",
   "theorems": [
    "C14_receive_loop_hangs_refuted",
    "C14_loop_never_raises_partial",
    "C14_unusable_message_leaves_no_trace_partial"
   ],
   "note": "False as stated: message b\"5\" hangs the loop. Proved: no exception escapes, hang exactly on the decoder's hanging inputs, unusable messages leave the session unchanged."
  },
  {
   "property": "C15",
   "status": "partial",
   "theorems": [
    "C15_only_lists_refuted",
    "C15_only_announced_packets_act_partial"
   ],
   "note": "False as stated: a byte string starting with a type byte is dispatched too (b\"2:\\x0e\\x05\" opens channel 5). Proved: only announced packets change anything."
  },
  {
   "property": "C16",
   "status": "proved",
   "theorems": [
    "C16_password_not_logged"
   ],
   "note": "For any repr function; noninterference over all pairs of packets."
  },
  {
   "property": "C17",
   "status": "proved",
   "theorems": [
    "C17_read_stream_fidelity"
   ],
   "note": "Read and buffer operations are atomic steps (both hold the channel lock)."
  },
  {
   "property": "C18",
   "status": "proved",
   "theorems": [
    "C18_read_returns_min"
   ],
   "note": ""
  },
  {
   "property": "C19",
   "status": "partial",
   "theorems": [
    "C19_readiness_exact_refuted",
    "C19_ready_iff_queued_partial"
   ],
   "note": "False as stated: an empty data message makes the channel truthy with nothing to read. Proved: truthy iff a message is queued."
  },
  {
   "property": "C20",
   "status": "proved",
   "theorems": [
    "C20_closed_channel_silent",
    "C20_closed_channel_sends_nothing",
    "C20_close_callback_at_most_once",
    "C20_notify_close_closes",
    "C20_drop_closes_all"
   ],
   "note": "A raw client.send with a hand-made packet for the same number is outside the claim."
  },
  {
   "property": "C21",
   "status": "proved",
   "theorems": [
    "C21_routed_to_registered_object",
    "C21_nothing_else_delivers",
    "C21_arrival_order",
    "C21_all_delivered",
    "C21_written_with_own_number",
    "C21_control_to_registered_object",
    "C21_control_sent_with_own_number",
    "C21_close_requested_with_own_number"
   ],
   "note": "data_message needs payloads shorter than 2^63 bytes."
  },
  {
   "property": "C22",
   "status": "partial",
   "theorems": [
    "C22_reopen_after_drop_refuted",
    "C22_closed_number_is_free_partial",
    "C22_free_number_opens_fresh_partial"
   ],
   "note": "False as stated after a dropped connection: the closed channel object stays registered. Proved for notify_close."
  },
  {
   "property": "C23",
   "status": "partial",
   "theorems": [
    "C23_once_across_drops_refuted",
    "C23_once_without_drops_partial",
    "C23_response_runs_all_partial",
    "C23_drop_runs_all_partial"
   ],
   "note": "False as stated across drops: clear_callbacks does not remove what it ran. Proved without drops, plus what a response and a drop run."
  },
  {
   "property": "C24",
   "status": "proved",
   "theorems": [
    "C24_ping_pong"
   ],
   "note": ""
  },
  {
   "property": "C25",
   "status": "proved",
   "theorems": [
    "C25_one_handshake_packet",
    "C25_identity_rules",
    "C25_manager_told",
    "C25_manager_told_on_poll"
   ],
   "note": "The poll event only reports the identity. The identity must be shorter than 2^63 bytes."
  },
  {
   "property": "C26",
   "status": "proved",
   "theorems": [
    "C26_reported_until_acknowledged",
    "C26_not_again_once_acknowledged",
    "C26_only_what_was_told",
    "C26_blank_changes_nothing"
   ],
   "note": "Any history of identities, tokens and API answers. A failed report of another identity un-settles the first (shown in the example)."
  },
  {
   "property": "C27",
   "status": "proved",
   "theorems": [
    "C27_limiter_exact",
    "C27_no_deadlock"
   ],
   "note": "Read, add and write of the counter are separate steps; any number of requests, any failure of thread start."
  },
  {
   "property": "C28",
   "status": "proved",
   "theorems": [
    "C28_no_slot_leaks",
    "C28_quiet_system_is_empty"
   ],
   "note": ""
  },
  {
   "property": "C29",
   "status": "proved",
   "theorems": [
    "C29_refused_cleanly",
    "C29_refusal_message",
    "C29_full_limiter_refuses",
    "C29_started_is_silent"
   ],
   "note": "Six request kinds. A failed thread start counts as a refusal."
  },
  {
   "property": "C30",
   "status": "proved",
   "theorems": [
    "C30_prefix_in_chunks",
    "C30_whole_file_or_one_error",
    "C30_other_path_leaves_channel_open"
   ],
   "note": "The oracle may close the channel or fail any step. A non-text path is reported but leaves the channel open (extra theorem)."
  },
  {
   "property": "C31",
   "status": "partial",
   "theorems": [
    "C31_command_never_completes_refuted",
    "C31_prefix_of_stdout_partial",
    "C31_ending_partial",
    "C31_closed_channel_ends_loop_partial",
    "C31_readable_end_completes_partial",
    "C31_forwards_what_is_read_partial"
   ],
   "note": "False as stated: a finished command is reported by poll as hang-up only and the loop never ends. Proved: data order, exact ending when the loop ends, and when it does."
  },
  {
   "property": "C32",
   "status": "proved",
   "theorems": [
    "C32_echo_answers",
    "C32_echo_in_order"
   ],
   "note": "Messages shorter than 2^63 bytes. Data buffered before the service is attached is not echoed."
  },
  {
   "property": "C33",
   "status": "partial",
   "theorems": [
    "C33_in_order_without_failures_partial",
    "C33_all_delivered_partial",
    "C33_prefix_when_broken_partial",
    "C33_nothing_before_connection",
    "C33_close_shuts_partial",
    "C33_no_deadlock",
    "C33_timeout_hole_refuted",
    "C33_close_race_refuted"
   ],
   "note": "Modelled with both threads and the lock, one step per statement. Refuted twice: a sendall timeout drops the rest of the buffer and later data follows the hole; self.socket is set without the lock, so SHUT_WR can precede the flush. Proved: in order and complete when no send raises, prefix when the socket breaks for good, no deadlock."
  },
  {
   "property": "C34",
   "status": "partial",
   "theorems": [
    "C34_independent_without_errors_partial",
    "C34_shared_event_refuted",
    "C34_event_ends_all",
    "C34_heard_refuted"
   ],
   "note": "Refuted: close_event belongs to the manager and is never cleared, so one hang-up ends all connections and every later one. Proved: independence while no poll reports an error."
  },
  {
   "property": "C35",
   "status": "partial",
   "theorems": [
    "C35_in_order_partial",
    "C35_ended_closes_partial",
    "C35_hangup_closes_partial",
    "C35_failure_ends_partial",
    "C35_end_of_stream_refuted"
   ],
   "note": "Refuted: end of stream polls as POLLIN with empty recv and break leaves only the for loop, so the thread spins and the channel stays open. Proved: data in order, a connection that leaves its loop closes the channel (unless the elapsed time is 0), hang-up leaves the loop."
  },
  {
   "property": "C36",
   "status": "partial",
   "theorems": [
    "C36_open_by_name_partial",
    "C36_unknown_name_partial",
    "C36_unknown_port_partial",
    "C36_open_by_port_partial",
    "C36_stale_port_refuted",
    "C36_default_services_partial"
   ],
   "note": "False as stated: a name registered twice leaves its old port pointing at the new one. Proved for everything else; port 0 means port 80."
  },
  {
   "property": "C37",
   "status": "proved",
   "theorems": [
    "C37_signals",
    "C37_no_kill_after_exit",
    "C37_kill_comes",
    "C37_does_not_give_up"
   ],
   "note": "Monotonic clock. The process may have exited between the wait thread's look and its SIGKILL, never been collected."
  },
  {
   "property": "C38",
   "status": "partial",
   "theorems": [
    "C38_close_before_spawn_refuted",
    "C38_close_after_spawn_partial"
   ],
   "note": "False as stated: a close before the fork returns never signals the process. Proved once the pid is known."
  },
  {
   "property": "C39",
   "status": "partial",
   "theorems": [
    "C39_input_in_order_partial",
    "C39_input_before_spawn_refuted"
   ],
   "note": "False for input that arrives before the process is spawned (lost, and the channel is closed). Proved otherwise for any sequence of partial writes and failures."
  },
  {
   "property": "C40",
   "status": "proved",
   "theorems": [
    "C40_lists_launched",
    "C40_launch_forgets_closed",
    "C40_close_closes_all"
   ],
   "note": ""
  },
  {
   "property": "C41",
   "status": "proved",
   "theorems": [
    "C41_does_what_is_asked",
    "C41_not_a_dictionary"
   ],
   "note": "All dictionaries of wire values, including keys that are not bytes, duplicate names after decoding, and unhashable channel numbers."
  },
  {
   "property": "C42",
   "status": "proved",
   "theorems": [
    "C42_only_permitted_files_copied",
    "C42_success_copies_permitted_file",
    "C42_backrefs_refused",
    "C42_backref_request_changes_no_file"
   ],
   "note": "Lexical: symbolic links are not modelled. The root is absolute, as os.path.abspath makes it."
  },
  {
   "property": "C43",
   "status": "partial",
   "theorems": [
    "C43_plain_ids_confined_partial",
    "C43_plain_ids_read_snapshot_partial",
    "C43_undecodable_ids_partial",
    "C43_absolute_ids_refuted"
   ],
   "note": "Refuted: the id is joined unchecked, an absolute id reads and removes any file. Proved for ids that are ordinary names."
  },
  {
   "property": "C44",
   "status": "partial",
   "theorems": [
    "C44_snapshot_isolation_partial",
    "C44_well_behaved_server_partial",
    "C44_packets_carry_snapshot_partial",
    "C44_other_name_refuted"
   ],
   "note": "Refuted by another id that names the same file (./u). Proved for ordinary ids and servers that use the paths given to them."
  },
  {
   "property": "C45",
   "status": "proved",
   "theorems": [
    "C45_chunks_reassemble",
    "C45_chunks_reassemble_among_others",
    "C45_reading_ends",
    "C45_packets_reassemble",
    "C45_fetching_ends"
   ],
   "note": "read_upload alone; that its data go into one reply packet is C46."
  },
  {
   "property": "C46",
   "status": "partial",
   "theorems": [
    "C46_one_reply_partial",
    "C46_reply_says_what_happened_partial",
    "C46_undecodable_device_path_refuted"
   ],
   "note": "False for a device path that is not UTF-8. Proved otherwise, for every fault schedule, up to strings of 2^63 bytes and for encodable exception messages."
  },
  {
   "property": "C47",
   "status": "proved",
   "theorems": [
    "C47_chunked_writes_assemble",
    "C47_single_packet",
    "C47_writes_succeed"
   ],
   "note": "Safety for every accepted sequence with other events in between; success without I/O errors."
  },
  {
   "property": "C48",
   "status": "proved",
   "theorems": [
    "C48_existing_files_kept",
    "C48_smallest_free_name",
    "C48_hundred_taken_names_fail",
    "C48_undecodable_path"
   ],
   "note": "Other programs creating the chosen name between the check and the rename, and dangling links, are not modelled."
  },
  {
   "property": "C49",
   "status": "partial",
   "theorems": [
    "C49_stored_inside_partial",
    "C49_backref_escapes_refuted"
   ],
   "note": "Refuted: copy_download accepts '..'. Proved for paths without it."
  },
  {
   "property": "C50",
   "status": "partial",
   "theorems": [
    "C50_missing_folder_refuted",
    "C50_missing_folder_never_succeeds_refuted"
   ],
   "note": "Refuted for every path with a missing folder: the fallback is only used for numbered names."
  },
  {
   "property": "C51",
   "status": "proved",
   "theorems": [
    "C51_disk_space_margin",
    "C51_without_usage_information"
   ],
   "note": "Unused = f_bfree * f_frsize, the meaning of disk_tools.disk_usage().used."
  },
  {
   "property": "C52",
   "status": "proved",
   "theorems": [
    "C52_close_never_fails",
    "C52_other_files_kept",
    "C52_snapshot_removed",
    "C52_idempotent"
   ],
   "note": "For ids with path separators 'its snapshot' is whatever the joined path names (see C43)."
  },
  {
   "property": "C53",
   "status": "proved",
   "theorems": [
    "C53_scan_ends",
    "C53_limited_scan_ends",
    "C53_scan_ends_if_inodes_finite"
   ],
   "note": "Assumes that inode() does not raise, as in CPython on POSIX; with a depth limit, such as the default of 10, that is not needed. A file system that does not change during the scan."
  },
  {
   "property": "C54",
   "status": "proved",
   "theorems": [
    "C54_depth_and_hidden"
   ],
   "note": ""
  },
  {
   "property": "C55",
   "status": "proved",
   "theorems": [
    "C55_complete_on_ordinary_trees"
   ],
   "note": "The result also has the right order of entries within a directory."
  },
  {
   "property": "C56",
   "status": "proved",
   "theorems": [
    "C56_only_what_exists",
    "C56_no_root_no_result"
   ],
   "note": ""
  },
  {
   "property": "C57",
   "status": "proved",
   "theorems": [
    "C57_one_scan_at_a_time",
    "C57_success_after_write"
   ],
   "note": ""
  },
  {
   "property": "C58",
   "status": "partial",
   "theorems": [
    "C58_every_request_answered_refuted",
    "C58_failure_answered_refuted",
    "C58_one_answer_partial",
    "C58_answered_partial"
   ],
   "note": "False: a request made while a scan holds the lock is dropped, and a scan that fails in its thread is only logged. Proved: at most one answer per request, and an answer when no scan was running and nothing fails."
  },
  {
   "property": "C59",
   "status": "partial",
   "theorems": [
    "C59_never_torn_refuted",
    "C59_failed_write_refuted",
    "C59_whole_between_writes_partial"
   ],
   "note": "False: the file is truncated and rewritten in place. Proved: whole whenever no thread is writing and no write has failed."
  },
  {
   "property": "C60",
   "status": "proved",
   "theorems": [
    "C60_ids_count_up",
    "C60_distinct_and_increasing"
   ],
   "note": "Threads that race on call_id are not modelled (the agent only uses call_with_id)."
  },
  {
   "property": "C61",
   "status": "proved",
   "theorems": [
    "C61_returns_matching_result",
    "C61_otherwise_raises",
    "C61_this_call",
    "C61_how_it_ends",
    "C61_one_ending"
   ],
   "note": "A Silent network makes call hang: urlopen has no time limit."
  },
  {
   "property": "C62",
   "status": "partial",
   "theorems": [
    "C62_errors_classified_partial",
    "C62_one_description_partial",
    "C62_strange_code_refuted"
   ],
   "note": "False when the error code is an array or an object: TypeError (C62_strange_code_refuted). Proved for all other codes."
  },
  {
   "property": "C63",
   "status": "partial",
   "theorems": [
    "C63_distinct_partial",
    "C63_distinct_supplied_partial",
    "C63_mixed_ids_refuted"
   ],
   "note": "False when call and call_with_id are mixed with integer ids: only call_with_id checks, and only against its own ids. Proved for non-numeric (or < 2) supplied ids and for batches without call."
  },
  {
   "property": "C64",
   "status": "proved",
   "theorems": [
    "C64_reports_response",
    "C64_unanswered",
    "C64_result_was_given",
    "C64_any_order",
    "C64_well_formed",
    "C64_no_list"
   ],
   "note": "Order independence needs at most one response per id, as JSON-RPC demands; C64_twice shows what happens otherwise."
  },
  {
   "property": "C65",
   "status": "proved",
   "theorems": [
    "C65_sent_once_or_not",
    "C65_leaving_sends"
   ],
   "note": "A body that calls send itself sends once more (C65_sent_by_body); C65_leaving_sends covers every body."
  },
  {
   "property": "C66",
   "status": "partial",
   "theorems": [
    "C66_until_accepted_partial",
    "C66_never_afterwards_partial",
    "C66_request_partial",
    "C66_unreadable_metadata_refuted",
    "C66_never_sent_refuted"
   ],
   "note": "False when the metadata cannot be read: the sync then sends only authentication (refuted), and a server that answers ids it was not sent stops metadata for good (refuted). Proved for every history in which either all metadata was readable or the server only acknowledges what it was sent."
  },
  {
   "property": "C67",
   "status": "proved",
   "theorems": [
    "C67_sent_iff_changed",
    "C67_one_last_list",
    "C67_unreadable"
   ],
   "note": ""
  },
  {
   "property": "C68",
   "status": "partial",
   "theorems": [
    "C68_an_hour_apart_partial",
    "C68_first_poll_partial",
    "C68_only_disk_polls_partial",
    "C68_clock_jumps_refuted",
    "C68_clock_set_back_refuted"
   ],
   "note": "The clock is time.time(): a jump lets two reports through within an hour of real time, and setting it back before the first poll silences that poll (both refuted). Proved: two reports are an hour of clock readings apart whatever happens between, the first poll not before the start time reports, nothing else reports."
  },
  {
   "property": "C69",
   "status": "partial",
   "theorems": [
    "C69_never_raises_partial",
    "C69_completes_partial",
    "C69_until_exit_partial",
    "C69_silent_server_refuted",
    "C69_endless_script_refuted"
   ],
   "note": "urlopen and check_output have no time limit: a silent server or an endless tag script hang the poll (refuted). Proved: no exception ever leaves a poll, and without those two hangs every poll completes and polling goes on until exit."
  },
  {
   "property": "C70",
   "status": "partial",
   "theorems": [
    "C70_query_partial",
    "C70_prefix_partial",
    "C70_fragment_refuted"
   ],
   "note": "A URL with a fragment and no question mark gets the feature list in its fragment (refuted). Proved for all URLs without fragment; the prefix for all URLs."
  },
  {
   "property": "C71",
   "status": "proved",
   "theorems": [
    "C71_words",
    "C71_words_exist",
    "C71_clean",
    "C71_text"
   ],
   "note": "Under Python 3, where \\s is Unicode white space; bytes that are not UTF-8 are dropped, as the code does."
  },
  {
   "property": "C72",
   "status": "proved",
   "theorems": [
    "C72_consistent",
    "C72_counts",
    "C72_part",
    "C72_percent",
    "C72_empty"
   ],
   "note": "Float division, multiplication and round(x, 1) are any monotone functions that keep 0, 1 and 100."
  },
  {
   "property": "C73",
   "status": "partial",
   "theorems": [
    "C73_interfaces_partial",
    "C73_addresses_partial",
    "C73_notation_partial",
    "C73_names_refuted"
   ],
   "note": "Exact for ASCII names and for all addresses; refuted for other names, which are blurred to U+FFFD."
  },
  {
   "property": "C74",
   "status": "partial",
   "theorems": [
    "C74_found_partial",
    "C74_absent_partial",
    "C74_unreadable_partial",
    "C74_lines_partial",
    "C74_value_partial",
    "C74_undecodable_refuted"
   ],
   "note": "Proved for values that are UTF-8; the value is in lower case, as the code reports it. Refuted otherwise: UnicodeDecodeError escapes."
  },
  {
   "property": "C75",
   "status": "partial",
   "theorems": [
    "C75_private_partial",
    "C75_cache_refuted",
    "C75_addresses_refuted"
   ],
   "note": "Refuted: the first call returns the cache itself and the copies share ip_list. Proved for programs that leave the first dictionary and its list alone."
  },
  {
   "property": "C76",
   "status": "partial",
   "theorems": [
    "C76_integer_partial",
    "C76_default_partial",
    "C76_unset_partial",
    "C76_one_partial",
    "C76_too_long_refuted"
   ],
   "note": "Proved up to int()'s limit of digits (CPython 3.11: 4300), refuted beyond it."
  },
  {
   "property": "C77",
   "status": "proved",
   "theorems": [
    "C77_killed",
    "C77_stopped"
   ],
   "note": "Clock readings are exact rationals. A jump backwards is not noticed, as the statement asks."
  },
  {
   "property": "C78",
   "status": "partial",
   "theorems": [
    "C78_no_command_partial",
    "C78_success_partial",
    "C78_failure_partial",
    "C78_status_partial",
    "C78_unknown_level_refuted",
    "C78_debug_refuted",
    "C78_log_file_refuted",
    "C78_interrupted_refuted"
   ],
   "note": "Refuted: an unknown log level, a log file that fails and --debug give tracebacks. Proved for the rest. argparse is not modelled."
  },
  {
   "property": "C79",
   "status": "partial",
   "theorems": [
    "C79_thread_ends_cleanly_refuted"
   ],
   "note": "False: WSClient.run calls self.on_close, which does not exist."
  },
  {
   "property": "C80",
   "status": "partial",
   "theorems": [
    "C80_output_in_order_partial",
    "C80_output_when_all_read_partial",
    "C80_output_lost_at_exit_refuted"
   ],
   "note": "False as stated: a hang-up reported together with a partial read drops the rest. Proved: prefix, and everything if nothing is left unread."
  },
  {
   "property": "C81",
   "status": "partial",
   "theorems": [
    "C81_channel_stays_open_refuted",
    "C81_input_after_end_partial"
   ],
   "note": "False: the agent asks to close a terminal's channel only in answer to input."
  },
  {
   "property": "C82",
   "status": "partial",
   "theorems": [
    "C82_writes_confined_partial",
    "C82_any_file_written_refuted"
   ],
   "note": "Refuted: the device path of a write is used unchecked. Proved: nothing else changes."
  },
  {
   "property": "C83",
   "status": "proved",
   "theorems": [
    "C83_returned_iff_acknowledged",
    "C83_sends",
    "C83_sends_nothing_else",
    "C83_never_raises"
   ],
   "note": ""
  },
  {
   "property": "C84",
   "status": "partial",
   "theorems": [
    "C84_partial_data_removed_partial",
    "C84_unstored_download_kept_refuted"
   ],
   "note": "Holds when the data cannot be written and the removal itself succeeds (C84_partial_data_removed_partial). Missing: a download that is complete but cannot be stored is kept in the directory for downloads (C84_unstored_download_kept_refuted), and a failed removal is ignored by the code."
  },
  {
   "property": "C85",
   "status": "partial",
   "theorems": [
    "C85_window_has_latest_size_partial",
    "C85_running_terminal_resized",
    "C85_start_undoes_resize_refuted"
   ],
   "note": "False if a message comes between reading the size and setting it at the start (C85_start_undoes_resize_refuted). Proved for all other interleavings, if no ioctl fails."
  },
  {
   "property": "C86",
   "status": "partial",
   "theorems": [
    "C86_other_data_ignored",
    "C86_improper_size_ignored_partial",
    "C86_improper_size_ends_terminal_refuted",
    "C86_improper_initial_size_refuted",
    "C86_only_while_open"
   ],
   "note": "Proved for data that ask for no size, and for improper sizes while the terminal runs. False before the start: the improper size is stored and makes the start raise (C86_improper_size_ends_terminal_refuted); so does an improper initial size."
  },
  {
   "property": "C87",
   "status": "proved",
   "theorems": [
    "C87_sent_once_without_id",
    "C87_answer_ignored"
   ],
   "note": "Text that reaches the client; the HTTP exchange itself is one oracle step. As everywhere, a server that never answers hangs the call."
  },
  {
   "property": "C88",
   "status": "proved",
   "theorems": [
    "C88_check"
   ],
   "note": "Up to the first id that raises; results with the same id count as the last one, as the code does."
  },
  {
   "property": "C89",
   "status": "proved",
   "theorems": [
    "C89_no_script",
    "C89_failing_script",
    "C89_script_removed"
   ],
   "note": "A script that never ends hangs the poll (C69), which is outside the claim."
  },
  {
   "property": "C90",
   "status": "proved",
   "theorems": [
    "C90_all_three",
    "C90_first_poll"
   ],
   "note": "Hangs of urlopen and check_output are outside the claim (C69)."
  },
  {
   "property": "C91",
   "status": "partial",
   "theorems": [
    "C91_reused_number_refuted",
    "C91_undisturbed_call_partial",
    "C91_after_the_close_partial",
    "C91_own_number_partial"
   ],
   "note": "Refuted by a schedule: the test of is_closed and the sending are not atomic. Proved for calls not overlapped by the close of that channel; at most one stale packet per thread."
  },
  {
   "property": "C92",
   "status": "partial",
   "theorems": [
    "C92_two_readers_refuted",
    "C92_empty_message_refuted",
    "C92_single_reader_partial",
    "C92_stream_partial",
    "C92_event_exact_partial",
    "C92_lock_released_partial",
    "C92_waiting_served_partial"
   ],
   "note": "Refuted with two readers and with an empty message; proved for one reader and non-empty messages. Stream order and wake-ups hold without restriction."
  },
  {
   "property": "C93",
   "status": "partial",
   "theorems": [
    "C93_early_data_refuted",
    "C93_from_then_on_partial",
    "C93_installing_partial"
   ],
   "note": "Refuted: data routed before set_callbacks stays in the buffer. Proved from the installation on, while connection, channel and callbacks stay."
  },
  {
   "property": "C94",
   "status": "proved",
   "theorems": [
    "C94_uses_what_is_meant",
    "C94_one_meaning",
    "C94_starts",
    "C94_refuses",
    "C94_refuses_why"
   ],
   "note": "The locale encoding is taken to be UTF-8."
  },
  {
   "property": "C95",
   "status": "partial",
   "theorems": [
    "C95_early_instruction_refuted",
    "C95_its_part_is_there_partial",
    "C95_dropped_partial",
    "C95_once_started_partial"
   ],
   "note": "Refuted: terminals and port forwards are set up after the m2m thread was started. Proved with the exact condition per instruction."
  },
  {
   "property": "C96",
   "status": "proved",
   "theorems": [
    "C96_no_overlap",
    "C96_not_after_acknowledged",
    "C96_until_acknowledged",
    "C96_lock_returned"
   ],
   "note": ""
  },
  {
   "property": "C97",
   "status": "partial",
   "theorems": [
    "C97_waits_for_another_refuted",
    "C97_after_acknowledgement_partial"
   ],
   "note": "Refuted by a schedule; proved once the metadata were acknowledged."
  },
  {
   "property": "C98",
   "status": "proved",
   "theorems": [
    "C98_called_for_messages",
    "C98_one_call_each",
    "C98_call_comes_first"
   ],
   "note": ""
  },
  {
   "property": "C99",
   "status": "partial",
   "theorems": [
    "C99_answered_on_the_wire_partial",
    "C99_one_request_each_partial",
    "C99_every_request_has_a_message_partial",
    "C99_silence_refuted"
   ],
   "note": "No reply for a close, nor for a write whose device path is not UTF-8 (C99_silence_refuted). The rest is proved for replies that fit in a packet."
  },
  {
   "property": "C100",
   "status": "proved",
   "theorems": [
    "C100_deeds_as_instructed",
    "C100_one_deed_each"
   ],
   "note": ""
  },
  {
   "property": "C101",
   "status": "proved",
   "theorems": [
    "C101_file_over_the_wire",
    "C101_fetching_ends"
   ],
   "note": "Hypotheses: the temporary directory is a normal path, the root absolute, the upload id a plain file name in UTF-8; nothing in between names the snapshot."
  },
  {
   "property": "C102",
   "status": "proved",
   "theorems": [
    "C102_stored_over_the_wire",
    "C102_single_message",
    "C102_storing_succeeds"
   ],
   "note": "Hypotheses: the download file of the id is neither of the two temporary directories; nothing in between names it."
  },
  {
   "property": "C103",
   "status": "partial",
   "theorems": [
    "C103_reads_inside_without_links_partial",
    "C103_copies_permitted_file_partial",
    "C103_links_followed_refuted"
   ],
   "note": "Proved when no link is in the remote directory (links elsewhere, also on the way to it, are allowed) and no other program interferes during the request; false when a link in it leads out."
  },
  {
   "property": "C104",
   "status": "partial",
   "theorems": [
    "C104_stores_inside_without_links_partial",
    "C104_stored_in_remote_directory_partial",
    "C104_linked_folder_refuted",
    "C104_dangling_link_refuted"
   ],
   "note": "Proved when no link is in the remote directory and no other program interferes during the request; false with a linked folder, and with a link to nothing when the download has to be copied."
  },
  {
   "property": "C105",
   "status": "partial",
   "theorems": [
    "C105_nothing_replaced_partial",
    "C105_dangling_link_replaced_refuted",
    "C105_race_refuted"
   ],
   "note": "Proved for files and folders while no other program interferes; a link to nothing is replaced, and so is a file made between the check and the rename."
  },
  {
   "property": "C106",
   "status": "partial",
   "theorems": [
    "C106_scan_changes_its_file_partial",
    "C106_scan_written_partial",
    "C106_planted_link_refuted"
   ],
   "note": "Proved when the name of the result file is not a link and no other program interferes; false with a planted link."
  },
  {
   "property": "C107",
   "status": "partial",
   "theorems": [
    "C107_distinct_when_alone_partial",
    "C107_every_call_gets_an_id_partial",
    "C107_from_two_on_partial",
    "C107_shared_refuted",
    "C107_repeated_refuted"
   ],
   "note": "One thread at a time: the ids are 2, 3, 4, ...; always: every call gets an id, none below 2. Missing: distinctness with threads at once, false: two threads can get the same id, and one thread the same id twice (refuted). The sending and syncing threads share one JSONRPC object (client.py:71)."
  },
  {
   "property": "C108",
   "status": "proved",
   "theorems": [
    "C108_heard_is_what_is_said"
   ],
   "note": "A channel operation is one step here (C91 is about what can happen in between). Callbacks that use the channel themselves are excluded by hypothesis; in the agent that is the echo service, covered by C21."
  },
  {
   "property": "C109",
   "status": "proved",
   "theorems": [
    "C109_prefix_of_the_file",
    "C109_whole_file_or_error",
    "C109_prefix_of_the_output"
   ],
   "note": "The operations on the channel among the inputs of the client are those of a run of the service model; the service's view of the channel (closed or not) is the oracle of that model."
  },
  {
   "property": "C110",
   "status": "proved",
   "theorems": [
    "C110_stream_heard"
   ],
   "note": "A channel operation is one step (see C91). The service's callbacks are those installed; other callbacks and threads neither speak through the channel nor replace its callbacks."
  },
  {
   "property": "C111",
   "status": "partial",
   "theorems": [
    "C111_local_server_gets_partial",
    "C111_timeout_hole_refuted"
   ],
   "note": "Proved where no sendall failed; refuted in general by a session with a sendall that times out. Otherwise as C110."
  },
  {
   "property": "C112",
   "status": "proved",
   "theorems": [
    "C112_output_heard"
   ],
   "note": "What is left unread when the process thread ends stays unread: see C80."
  },
  {
   "property": "C113",
   "status": "partial",
   "theorems": [
    "C113_input_arrives_partial",
    "C113_early_input_refuted"
   ],
   "note": "All of it unless the terminal asked for the channel to be closed; refuted by input that comes before the process is there."
  },
  {
   "property": "C114",
   "status": "partial",
   "theorems": [
    "C114_closing_hangs_up_partial",
    "C114_signals_partial",
    "C114_closed_too_early_refuted"
   ],
   "note": "Proved once the creation of the process has been noted; refuted for a channel closed before that."
  },
  {
   "property": "C115",
   "status": "partial",
   "theorems": [
    "C115_service_connected_partial",
    "C115_orphaned_terminal_refuted"
   ],
   "note": "Proved unless the number is that of a channel closed by the end of an earlier connection; refuted there: the terminal is orphaned. Channel numbers are integers."
  },
  {
   "property": "C116",
   "status": "partial",
   "theorems": [
    "C116_refusal_heard_partial",
    "C116_dead_number_refuted"
   ],
   "note": "Proved unless the number is that of a channel closed by the end of an earlier connection, where nothing is heard (refuted); the websocket raises nothing but WebSocketError, the control text is encodable."
  },
  {
   "property": "C117",
   "status": "proved",
   "theorems": [
    "C117_echo_heard"
   ],
   "note": "A channel operation is one step (see C91). Messages shorter than 2^63 bytes; other callbacks and threads neither speak through the channel nor replace its callbacks."
  },
  {
   "property": "C118",
   "status": "proved",
   "theorems": [
    "C118_within_limits",
    "C118_full_of_its_own",
    "C118_apart",
    "C118_counts_running"
   ],
   "note": "Counters are exact, which is C27; each request and ending is one step."
  },
  {
   "property": "C119",
   "status": "partial",
   "theorems": [
    "C119_user_partial",
    "C119_group_partial",
    "C119_unknown_user_refuted",
    "C119_unknown_group_refuted",
    "C119_user_and_group_refuted",
    "C119_groups_kept_refuted",
    "C119_other_groups_kept_refuted"
   ],
   "note": "Proved: the user's ids, kept for ever, and the group's ids. False: unknown users are ignored, user and group together fail, the agent's groups stay."
  },
  {
   "property": "C120",
   "status": "partial",
   "theorems": [
    "C120_program",
    "C120_runs",
    "C120_ends_partial",
    "C120_child_stays_refuted"
   ],
   "note": "The child ends only if the limiter's lock was free at the fork."
  },
  {
   "property": "C121",
   "status": "partial",
   "theorems": [
    "C121_never_collected_refuted",
    "C121_wait_collects_partial",
    "C121_closing_collects_partial"
   ],
   "note": "Collected once the channel is closed or a wait thread runs; before that nobody waits."
  },
  {
   "property": "C122",
   "status": "partial",
   "theorems": [
    "C122_released_partial",
    "C122_descriptor_kept_refuted"
   ],
   "note": "Under no failing ioctl and no exception but OSError from sending."
  },
  {
   "property": "C123",
   "status": "partial",
   "theorems": [
    "C123_interrupt_ends_partial",
    "C123_cleans_up_partial",
    "C123_swallowed_refuted",
    "C123_replaced_refuted"
   ],
   "note": "For interrupts outside the gathering of metadata and without failures afterwards; both are needed."
  },
  {
   "property": "C124",
   "status": "proved",
   "theorems": [
    "C124_exit_ends"
   ],
   "note": "Nothing in the code calls exit()."
  },
  {
   "property": "C125",
   "status": "proved",
   "theorems": [
    "C125_only_main",
    "C125_process_ends"
   ],
   "note": "Which thread starts which is read off the code (may_start)."
  },
  {
   "property": "C126",
   "status": "proved",
   "theorems": [
    "C126_no_deadlock",
    "C126_exclusive",
    "C126_released"
   ],
   "note": "Locks of the agent only; a call that blocks inside a lock (websocket send, flush, sync, scan) is one step of the model, so its return is assumed."
  },
  {
   "property": "C127",
   "status": "proved",
   "theorems": [
    "C127_leaves"
   ],
   "note": "A scan, a sync, a flush and a send inside their locks may take any number of steps; the thread is only assumed not to stay at one of them for ever."
  },
  {
   "property": "C128",
   "status": "proved",
   "theorems": [
    "C128_same_or_refused",
    "C128_within",
    "C128_deep_refused",
    "C128_long_refused",
    "C128_no_new_hang"
   ],
   "note": "RecursionError is EOther in the model; the encoder's limits are not modelled."
  },
  {
   "property": "C129",
   "status": "proved",
   "theorems": [
    "C129_loses_refused_only"
   ],
   "note": "Limits in the decoder only; handlers and logging are taken to stay within them."
  },
  {
   "property": "C130",
   "status": "proved",
   "theorems": [
    "C130_conserved",
    "C130_no_more_than_received",
    "C130_objects"
   ],
   "note": "Channel numbers are integers; messages that are refused by the interpreter's limits count as messages."
  },
  {
   "property": "C131",
   "status": "partial",
   "theorems": [
    "C131_released_after_drop_refuted",
    "C131_registered_until_closed_partial"
   ],
   "note": "False: for every n a session leaves n bytes in closed channels after a drop. Proved instead: a registered channel stays registered until its closing is announced."
  },
  {
   "property": "C132",
   "status": "partial",
   "theorems": [
    "C132_keeps_channel_partial",
    "C132_undisturbed_partial",
    "C132_taken_over_refuted",
    "C132_deaf_terminal_refuted"
   ],
   "note": "The full claim is false: an instruction for a number in use replaces the callbacks. Channel numbers are integers; a channel's test of is_closed and the sending are one step."
  },
  {
   "property": "C133",
   "status": "proved",
   "theorems": [
    "C133_scan_fails_only_if_reading_fails",
    "C133_scan_succeeds"
   ],
   "note": "Exact: the only exceptions are ScanDirectoryError for a root that is no directory and the operating system's error while reading a listing."
  },
  {
   "property": "C134",
   "status": "proved",
   "theorems": [
    "C134_unreachable_server",
    "C134_thread_ends"
   ],
   "note": "Includes the case that sending the data that had already arrived fails at once."
  },
  {
   "property": "C135",
   "status": "partial",
   "theorems": [
    "C135_while_open_partial",
    "C135_forgotten_partial",
    "C135_exclusive_partial",
    "C135_other_terminal_refuted",
    "C135_under_way_refuted"
   ],
   "note": "Proved while the descriptor is open, after its number is forgotten, and for all runs in which closing and forgetting exclude the callbacks. False in between: a closed number that is given out again is still written to."
  },
  {
   "property": "C136",
   "status": "partial",
   "theorems": [
    "C136_others_partial",
    "C136_alone_partial",
    "C136_packets_refuted"
   ],
   "note": "True of all threads that do not sync. Refuted for the handling of packets: the thread that handles them syncs when told to (client.py:219-225, m2mmanager.py:168-169), and then waits for a sync that the server never answers."
  },
  {
   "property": "C137",
   "status": "proved",
   "theorems": [
    "C137_authenticates",
    "C137_nothing_else",
    "C137_answers"
   ],
   "note": "A token None, which Client never has, is told apart by set_m2m_identity and compared only with itself. Logging is not in the model; no log call is given the token."
  },
  {
   "property": "C138",
   "status": "proved",
   "theorems": [
    "C138_level",
    "C138_known",
    "C138_fails"
   ],
   "note": "The parts of CPython's logging that are used are modelled by hand; rotation of the file and failing writes are not."
  },
  {
   "property": "C139",
   "status": "proved",
   "theorems": [
    "C139_understood",
    "C139_nothing_else",
    "C139_only_given",
    "C139_or_exits",
    "C139_dash",
    "C139_after",
    "C139_hint",
    "C139_client",
    "C139_logging"
   ],
   "note": "argparse of CPython 3.11.10 as far as this parser uses it is modelled by hand; which words look like negative numbers is left open. Other versions of argparse differ in corner cases (words of several letters, --)."
  },
  {
   "property": "C140",
   "status": "proved",
   "theorems": [
    "C140_wire",
    "C140_services",
    "C140_forward",
    "C140_on_the_wire",
    "C140_reached"
   ],
   "note": "The echo service (whose messages are as long as the peer's) and the replies to the server's reads of remote files (remote_directory.py:211 reads as many bytes as the server asks for) are not services in this sense and have no such bound. That a terminal, a socket or a pipe returns no more than is asked for is part of the model."
  },
  {
   "property": "C141",
   "status": "partial",
   "theorems": [
    "C141_addresses_refuted",
    "C141_stale_refuted",
    "C141_first_partial",
    "C141_unchanged_partial",
    "C141_tells_partial"
   ],
   "note": "False as stated: get_meta caches the addresses of the first sync for the life of the process, so a device that gets its address after the agent started, with a server that could not be reached before, is reported and accepted without one (C141_addresses_refuted). What holds: every request with metadata tells the device as it was at the first sync that could ask it, and a sync tells it until the server has acknowledged all of it. Changes between the calls of get_meta within one sync are left out; how the host answers is an input."
  },
  {
   "property": "C142",
   "status": "proved",
   "theorems": [
    "C142_only_this",
    "C142_first_poll"
   ],
   "note": "That the metadata are those of the first sync that could ask the host is C141; here only that they were the host's at one of the operations. When disk and tags are sent again is C67 and C68."
  },
  {
   "property": "C143",
   "status": "partial",
   "theorems": [
    "C143_not_started_refuted",
    "C143_no_text_refuted",
    "C143_command_partial",
    "C143_file_partial"
   ],
   "note": "False as stated: run_service reports an exception of Popen (no process can be made, too many descriptors, a NUL byte in the command) but does not close the channel (C143_not_started_refuted), and FileService does the same for a path that is not text (C143_no_text_refuted). Holds for a process that was started and a path that is text, if the websocket raises nothing but WebSocketError and a started process's descriptors fail with OSError if at all. That a command need not end at all is C31; refused launches are C116."
  }
 ]
}