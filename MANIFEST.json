{
 "claims": [
  {
   "property": "C01",
   "status": "proved",
   "theorems": [
    "rtp_parse_memory_safe",
    "rtp_parse_exact",
    "packet_parse_exact"
   ],
   "note": ""
  },
  {
   "property": "C02",
   "status": "partial",
   "theorems": [
    "datagram_classes_partial",
    "datagram_classes_exact",
    "datagram_classes_disjoint_refuted"
   ],
   "note": "STUN is recognised by its magic word only, so it overlaps with RTCP, DTLS and RTP (witnesses)."
  },
  {
   "property": "C03",
   "status": "proved",
   "theorems": [
    "resizer_memory_safe",
    "resizer_keeps_media",
    "resizer_keeps_timing",
    "resizer_keeps_order",
    "resizer_numbers",
    "resizer_refuses_only_late",
    "resizer_sends_when_full",
    "resizer_drains",
    "resizer_cuts_at_packet_time",
    "order_across_sources_refuted",
    "timing_g722_refuted",
    "padding_refuted"
   ],
   "note": "Witnesses show why the side conditions are needed: two sources can be interleaved within a packet, G.722 is split at the wrong byte, and a split padded packet is no valid packet any more. The conversion of the clock from double is not modelled: readings are arbitrary 32 bit values."
  },
  {
   "property": "C04",
   "status": "partial",
   "theorems": [
    "port_allocation_sound",
    "port_allocation_sequential",
    "port_offered_once_sequential",
    "port_pairs_inside_user_range",
    "port_offered_once_random_refuted",
    "port_free_but_refused_refuted"
   ],
   "note": "At most once holds in sequential mode and is refuted in random mode; a free port can be refused (refuted completeness)."
  },
  {
   "property": "C05",
   "status": "proved",
   "theorems": [
    "ringbuf_remembers"
   ],
   "note": ""
  },
  {
   "property": "C06",
   "status": "partial",
   "theorems": [
    "ttl_remaining_exact",
    "ttl_reset_race_refuted"
   ],
   "note": "Exact for serialised calls; the unsynchronised reset/reset_with race is refuted with a witness."
  },
  {
   "property": "C07",
   "status": "proved",
   "theorems": [
    "session_removed_exactly_when_idle",
    "timeout_notified_exactly_once",
    "timeout_counter_exact"
   ],
   "note": ""
  },
  {
   "property": "C08",
   "status": "partial",
   "theorems": [
    "uids_unique",
    "uid_none_only_first",
    "uid_never_none_refuted"
   ],
   "note": "Uniqueness proved; \"no id is zero\" is false for exactly the first id."
  },
  {
   "property": "C09",
   "status": "proved",
   "theorems": [
    "packet_counters_conserved",
    "drop_report_exact",
    "stream_arrivals_exact",
    "drop_report_five_locations_refuted"
   ],
   "note": "The drop report is exact for up to four distinct drop locations; more are counted but not reported (refuted with a witness)."
  },
  {
   "property": "C10",
   "status": "proved",
   "theorems": [
    "sbuf_refines_string",
    "sbuf_zero_size_refuted"
   ],
   "note": "For positive initial sizes; size 0 is an out-of-bounds store (witness)."
  },
  {
   "property": "C11",
   "status": "proved",
   "theorems": [
    "hash_table_is_multimap",
    "hash_table_transfer",
    "hash_table_transfer_dup_refuted"
   ],
   "note": ""
  },
  {
   "property": "C12",
   "status": "proved",
   "theorems": [
    "registry_callbacks_exact",
    "registry_callbacks_alternate"
   ],
   "note": ""
  },
  {
   "property": "C13",
   "status": "proved",
   "theorems": [
    "refcount_destroys_once_lifo",
    "refcount_quiescent"
   ],
   "note": "Any number of threads, objects and accesses below 2^31-1 (the counter is a 32-bit integer); destructor functions are opaque."
  },
  {
   "property": "C14",
   "status": "partial",
   "theorems": [
    "wref_getref_alive_partial",
    "wref_getref_counts_partial",
    "wref_unshared_refuted",
    "wref_overlap_refuted",
    "wref_after_release_refuted"
   ],
   "note": "Holds when the target is shared and getref calls on one weak reference do not overlap; refuted in general: three races in the code hand out a dying or released target."
  },
  {
   "property": "C15",
   "status": "proved",
   "theorems": [
    "writers_exclude",
    "upgrade_is_for_sole_reader",
    "sole_reader_may_upgrade",
    "readers_share",
    "no_deadlock",
    "lock_is_released",
    "owner_unlocks_refuted"
   ],
   "note": "For every number of threads and every interleaving. The last reader unlocks a mutex locked by the first one, which POSIX leaves undefined for a default mutex (witness); the model goes on as common implementations do."
  },
  {
   "property": "C16",
   "status": "proved",
   "theorems": [
    "queue_is_fifo",
    "queue_order",
    "queue_no_lost_wakeup",
    "batching_needs_pump_refuted"
   ],
   "note": "For every capacity, batch size, limit and interleaving. With batching switched on an item may wait for the pump call (witness)."
  },
  {
   "property": "C17",
   "status": "proved",
   "theorems": [
    "every_task_lives",
    "never_early",
    "last_is_last",
    "due_tasks_fire",
    "cancel_during_callback_refuted",
    "zero_period_hangs_refuted",
    "shutdown_hangs_refuted"
   ],
   "note": "Times are integers here, doubles in the code. Witnesses: a cancel during the callback fails and the task goes on; period zero hangs the thread; a cancel during the shutdown can block the shutdown for ever."
  },
  {
   "property": "C18",
   "status": "proved",
   "theorems": [
    "packet_handled_once",
    "processors_ascend",
    "register_adds",
    "unregister_removes",
    "processors_outlive_their_use",
    "processors_are_freed",
    "clone_keeps_processors_refuted",
    "processors_are_freed_refuted"
   ],
   "note": "For every history and schedule of any number of threads, with registering and unregistering meanwhile. Lifetime of counted processors holds as long as only managers without them are cloned, which is how the proxy uses clone (witness of the failure otherwise); beyond 23 counted processors on one list some are never freed (witness)."
  },
  {
   "property": "C19",
   "status": "proved",
   "theorems": [
    "names_found_exactly",
    "counter_is_the_sum",
    "double_counter_is_the_sum",
    "update_succeeds",
    "names_are_distinct",
    "proxy_names_distinct"
   ],
   "note": "For every list of at most 255 counters, every stream of random numbers with which the table gets built, and every history of updates by any threads. That the table gets built at all is a matter of chance; a run with the 29 real names is computed."
  },
  {
   "property": "C20",
   "status": "proved",
   "theorems": [
    "strsplit_bytewise",
    "tokenizer_exact",
    "tokens_total_unique"
   ],
   "note": "Both byte orders, any message length; the control buffers are multiples of 8 bytes long."
  },
  {
   "property": "C21",
   "status": "proved",
   "theorems": [
    "command_split_grammar",
    "tokens_total_unique"
   ],
   "note": "A cookie of 1023 bytes or more that is not cached ends in an assertion (RAbort), see C24."
  },
  {
   "property": "C22",
   "status": "proved",
   "theorems": [
    "parse_no_missing_argument",
    "parse_exact",
    "parse_refuses"
   ],
   "note": "The option list of update and lookup is an oracle here (its own parser is not part of this claim). Query takes at most 11 counter names although there are 14 counters."
  },
  {
   "property": "C23",
   "status": "proved",
   "theorems": [
    "repeat_gets_the_reply",
    "executed_once",
    "repeated_reply_is_genuine",
    "expired_reply_is_forgotten",
    "rcache_never_aborts"
   ],
   "note": "If storing the reply fails for lack of memory the command may be executed again. The cookie alone is the key: the sender address is not compared."
  },
  {
   "property": "C24",
   "status": "partial",
   "theorems": [
    "reply_never_overflows",
    "reply_no_abort_partial",
    "reply_no_abort_refuted"
   ],
   "note": "Memory safety and the form of the reply for every cookie and command; a reply or cookie of a few particular sizes makes an assertion fail (witnesses)."
  },
  {
   "property": "C25",
   "status": "partial",
   "theorems": [
    "url_quote_exact",
    "url_quote_unquote_roundtrip",
    "url_unquote_exact_partial",
    "url_unquote_overread_refuted"
   ],
   "note": "Unquoting is exact when the byte after the string is not a hexadecimal digit; otherwise \"%X\" at the end is read one byte too far (witness)."
  },
  {
   "property": "C26",
   "status": "proved",
   "theorems": [
    "listener_pair_atomic"
   ],
   "note": ""
  },
  {
   "property": "C27",
   "status": "proved",
   "theorems": [
    "same_address_same_object",
    "configured_address_same_object",
    "object_has_the_address",
    "different_addresses_different_objects",
    "label_refers_to_its_address",
    "duplicate_label_refused",
    "address_for_family",
    "bind_never_aborts",
    "same_address_same_object_refuted"
   ],
   "note": "For every history of calls with IPv4 and IPv6 addresses, with allocation and resolver failures. Without the proviso about configuring the address again the first claim is refuted."
  },
  {
   "property": "C28",
   "status": "proved",
   "theorems": [
    "compare_tags_exact",
    "find_stream_exact"
   ],
   "note": "For the callee side with a media suffix the code compares only the text after the last \";\" (side_of in SessSpec.v)."
  },
  {
   "property": "C29",
   "status": "partial",
   "theorems": [
    "delete_exact",
    "delete_keeps_others",
    "delete_only_when_free",
    "delete_dialog_partial",
    "delete_dialog_refuted",
    "weak_release_refuted"
   ],
   "note": "The exact effect is proved for every history. The full claim is false: the sweep ends at a session with exactly the requested tag, so further media streams of the dialog stay (witness); a weak hold taken by update is not the one released by delete with the same tag (witness)."
  },
  {
   "property": "C30",
   "status": "proved",
   "theorems": [
    "timeout_removes_one",
    "repeat_same_ports",
    "existing_is_kept",
    "unknown_lookup_and_update",
    "ports_distinct",
    "run_total",
    "failed_update_changes_address_refuted"
   ],
   "note": "A failed request for a new port changes the address given with the old port (witness)."
  },
  {
   "property": "C31",
   "status": "proved",
   "theorems": [
    "query_reply_exact",
    "query_unknown_counter",
    "query_bad_modifier",
    "query_default_overflow_refuted",
    "update_reply_exact",
    "simple_reply_exact"
   ],
   "note": "Exact text of query and update replies that fit; with a cookie near 1 KB the default query answers with an empty list (witness)."
  },
  {
   "property": "C32",
   "status": "proved",
   "theorems": [
    "no_failure",
    "sync_mirrors",
    "sync_completes",
    "references_balance",
    "add_or_replace",
    "remove_takes_away",
    "lost_log_refuted",
    "failed_removal_refuted"
   ],
   "note": "For every history of additions, replacements, removals and synchronisations, with log operations falling between any two steps of the replay, and with memory short when a socket is added or replaced. When memory is short while a removal is recorded, or while the table grows, the claim is refuted: a dead socket stays polled, or an assertion fails later."
  },
  {
   "property": "C33",
   "status": "proved",
   "theorems": [
    "other_address_verdict",
    "attacks_have_no_effect",
    "peer_always_accepted",
    "addresses_kept",
    "asymmetric_by_host",
    "first_packet_latches",
    "unknown_address_learned",
    "every_call_wf",
    "rtcp_follows_rtp",
    "noted_sequence_was_received",
    "lock_protects",
    "command_sets_address",
    "late_packet_discarded_refuted",
    "update_lets_the_peer_in_refuted",
    "peer_stays_latched_refuted"
   ],
   "note": "For every history of packets and commands on an RTP stream and its RTCP stream. The verdict assumes the address was known when the packet was received: the code tests that before it takes the lock, and a packet that passed the test replaces an address latched since (refuted). A first packet that is not RTP locks the stream so that later commands do not count, and SSRC 0 unlatches (both refuted)."
  },
  {
   "property": "C34",
   "status": "proved",
   "theorems": [
    "accounting_exact",
    "every_packet_counted_once",
    "jitter_records_bounded",
    "start_after_wrap_refuted",
    "ssrc_change_after_wrap_refuted",
    "marker_at_wrap_refuted",
    "first_overtaken_refuted",
    "window_is_535_refuted"
   ],
   "note": "Exact counts for reordering within 535 packets across any number of wraps; every packet is counted exactly once whatever arrives. Witnesses show why each side condition is needed. Jitter values (floating point) are not modelled."
  },
  {
   "property": "C35",
   "status": "proved",
   "theorems": [
    "in_cksum_makes_valid",
    "chksum_makes_valid",
    "recorded_checksums_verify",
    "zero_checksum_refuted"
   ],
   "note": "For every block of bytes, even and odd, and for every frame the recorder builds. A UDP checksum that comes out as zero is stored as zero instead of all ones, which IPv6 forbids (witness)."
  },
  {
   "property": "C36",
   "status": "proved",
   "theorems": [
    "found_only_if_configured",
    "configured_is_found",
    "wildcard_is_found",
    "same_name_same_target",
    "targets_do_not_change",
    "wildcard_sends_from",
    "configure_accepts_exactly",
    "enabled_iff_configured",
    "lookup_never_aborts",
    "configured_name_found_refuted"
   ],
   "note": "For every sequence of configured names and lookups, with resolver and allocation failures. A path with a colon in it that is configured without the unix: prefix is only found with the prefix (refuted otherwise). Paths longer than a socket address are cut."
  },
  {
   "property": "C37",
   "status": "proved",
   "theorems": [
    "stream_framing",
    "stream_progress",
    "stream_segmentation"
   ],
   "note": "For any split of the bytes and any short reads. A hang-up reported together with unread bytes drops them (src/rtpp_command_async.c:426-429), outside of this claim."
  },
  {
   "property": "C38",
   "status": "partial",
   "theorems": [
    "pcap_recording_partial",
    "pcap_recording_separate",
    "adhoc_recording",
    "remote_recording",
    "bridged_overflow_refuted",
    "bridged_unreadable_refuted",
    "short_write_refuted"
   ],
   "note": "A strict reader finds exactly the packets after the close; after a write error a prefix of them. Missing because false: RTCP in a common recording of a call between IPv4 and IPv6 overflows the buffer or corrupts the file (witnesses); a short write tears a record (witness)."
  },
  {
   "property": "C39",
   "status": "proved",
   "theorems": [
    "recording_never_fails",
    "recorded_together",
    "recorder_open_while_used",
    "copy_result",
    "copy_goes_to_target",
    "recording_stays",
    "stop_stops",
    "end_stops",
    "copy_success_means_copied_refuted",
    "recorders_have_own_files_refuted",
    "directions_have_own_files_refuted",
    "restarted_has_own_file_refuted",
    "stop_while_relaying_safe_refuted",
    "stop_between_packets_safe_partial"
   ],
   "note": "For every history of starts, copies, stops and session ends, with every kind of failure. Stopping while a packet is being recorded is not safe: the relaying thread reads the pointer twice without lock or reference (refuted; the part that holds is a stop between packets)."
  },
  {
   "property": "C40",
   "status": "proved",
   "theorems": [
    "packets_numbered_and_paced",
    "plays_exactly",
    "turn_catches_up",
    "turn_is_calls",
    "packet_buffer_never_overrun",
    "playback_ends_refuted"
   ],
   "note": "For every file, codec, loop count, packet time and series of calls; numbering and pacing also under memory and file errors. Times are exact (the code uses doubles). A payload type the player does not know is never played and never ends (refuted)."
  },
  {
   "property": "C41",
   "status": "proved",
   "theorems": [
    "wakeups_not_lost",
    "deadline_is_set",
    "wakeups_delivered",
    "writing_is_short",
    "wakeups_spaced",
    "shutdown_ends",
    "no_overflow",
    "overflow_refuted",
    "suspended_clock_refuted",
    "invalid_deadline_refuted"
   ],
   "note": "For every interleaving. Witnesses: the 2^31st nudge overflows an int; after a suspend the deadline is waited for on another clock, so the wake-up is late by the suspended time; an invalid timespec (C42) makes the thread spin with the mutex held."
  },
  {
   "property": "C42",
   "status": "partial",
   "theorems": [
    "timeval_valid",
    "timeval_defined",
    "timespec_valid_partial",
    "timespec_valid_refuted"
   ],
   "note": "Timeval conversion is proved for every double. The timespec conversion lacks the carry: times within half a nanosecond below a full second, during the first 48 days after boot, give tv_nsec = 10^9 (witness)."
  },
  {
   "property": "C43",
   "status": "proved",
   "theorems": [
    "round_exact",
    "accept_exact",
    "connections_conserved",
    "init_overflow_refuted"
   ],
   "note": "More than 100 configured non-accepting control sockets overrun the table at start-up (witness)."
  },
  {
   "property": "C44",
   "status": "proved",
   "theorems": [
    "sender_serves_in_order",
    "copies_and_retries_bounded",
    "sender_settles",
    "released_after_stop_refuted"
   ],
   "note": "For every mix of requests, outcomes of sendto and shutdown, with the queue taken as a FIFO (C16). A request queued behind the stop signal and fetched with it is never released (witness)."
  },
  {
   "property": "C45",
   "status": "partial",
   "theorems": [
    "processing_ends_iff",
    "network_processing_ends_iff",
    "ranked_copies_end_partial",
    "circular_copies_never_end",
    "processing_always_ends_refuted",
    "packet_is_spread",
    "packet_from_network_is_spread",
    "copies_go_out_once",
    "target_drops_own_media",
    "ended_gets_nothing",
    "copying_never_aborts",
    "failed_copy_aborts",
    "self_copy_refused"
   ],
   "note": "False as stated: with circular copies, which the commands accept, the processing of a packet recurses for ever (processing_always_ends_refuted, with the history).  What is proved instead is the exact condition, for every history of commands: processing ends if and only if every chain of copies from the session ends."
  },
  {
   "property": "C46",
   "status": "partial",
   "theorems": [
    "atoi_safe_exact_partial",
    "atoi_safe_rejects_non_numbers",
    "atoi_saferange_exact_partial",
    "atoi_safe_sep_exact_partial",
    "strtol_saferange_exact",
    "atoi_safe_truncates_refuted"
   ],
   "note": "Exact for numerals that fit an int; others wrap modulo 2^32 and are accepted (witness)."
  },
  {
   "property": "C47",
   "status": "proved",
   "theorems": [
    "ver_feature_exact"
   ],
   "note": ""
  },
  {
   "property": "C48",
   "status": "partial",
   "theorems": [
    "max_is_greatest",
    "min_is_least_partial",
    "min_is_least_refuted"
   ],
   "note": "The filter arithmetic is a parameter. recfilter_apply stores the maximum into the minimum (witness); recfilter_apply_int is right."
  },
  {
   "property": "C49",
   "status": "partial",
   "theorems": [
    "playing_never_aborts",
    "packets_only_when_sendable",
    "running_player_sends",
    "nothing_waits_when_sendable",
    "waiting_player_starts",
    "one_player_partial",
    "packets_of_latest_player_partial",
    "players_never_deadlock_partial",
    "commands_complete_partial",
    "deadlock_stays",
    "stopping_is_effective_refuted",
    "one_player_refuted",
    "muting_ends_refuted",
    "players_never_deadlock_refuted",
    "failed_play_counts_as_playing_refuted"
   ],
   "note": "False as stated: a waiting player is moved between two tables in two steps, and a stop command that looks for it in between finds it in neither; the player goes on, a second one joins it, the media of the other side is dropped for good, and the threads can lock each other out (refuted with schedules). Proved for every schedule: no abort, and waiting players start. Proved for every schedule in which no command is looking for a player while it is being moved: all the rest, the absence of deadlocks also under the condition that no other announcement is copied into the session."
  },
  {
   "property": "C50",
   "status": "partial",
   "theorems": [
    "every_packet_has_one_fate",
    "relayed_to_the_other_party",
    "never_sent_nowhere",
    "relayed_when_possible",
    "dropped_for_a_reason",
    "ignored_for_a_reason",
    "session_counters_exact",
    "proxy_counters_exact",
    "session_report_exact",
    "timeout_restarts_exact",
    "one_packet_per_turn",
    "turn_is_short_refuted",
    "received_is_relayed_or_discarded_refuted",
    "times_of_the_right_party_refuted"
   ],
   "note": "Proved for every history and interleaving, except for the last sentence, which is false: packets that are ignored do not count against the limit of one packet per turn, so that a flood from a wrong address holds the thread (turn_is_short_refuted; at most one packet a turn goes through the chain). Also refuted: that the packets received are those relayed and discarded, and that the times in the final report are those of the party they are reported for."
  },
  {
   "property": "C51",
   "status": "proved",
   "theorems": [
    "modifiers_parser_safe",
    "accepted_exactly",
    "rejected_for_a_reason",
    "modifiers_unambiguous",
    "packet_time_exact_partial",
    "packet_time_exact_refuted",
    "rtcp_port_follows_refuted"
   ],
   "note": "For every byte string and configuration. In the language as specified a packet time is a number cut to 32 bits, as the code does; that it is the number itself is refuted (z4294967316 counts as z20) and proved for numbers of 32 bits. The RTCP port is one above the RTP port modulo 2^16: 0 after 65535 (refuted otherwise). Packet ports of the library build are not modelled."
  },
  {
   "property": "C52",
   "status": "partial",
   "theorems": [
    "rtcp_packets_safe",
    "rejected_exactly",
    "reports_exact_but_losses",
    "loss_right_iff",
    "reports_exact_partial",
    "reports_never_cut",
    "loss_counts_refuted",
    "complete_report_kept_refuted"
   ],
   "note": "For every history of byte strings. Everything in a report is exact except loss counts, which are exact only from 0 to 65535 and for -1 (proved to be exactly these; refuted for others). A report followed by a truncated packet is lost (refuted). Two reports in one packet make two JSON texts, not one. Sending (hepconnector) is not part of it."
  },
  {
   "property": "C53",
   "status": "partial",
   "theorems": [
    "notifications_in_order",
    "lines_whole_partial",
    "lines_whole_refuted",
    "descriptors_well_used",
    "descriptors_bounded",
    "attempts_bounded",
    "healthy_delivers",
    "every_notification_ends",
    "aborts_only_inherited_partial",
    "never_aborts_refuted"
   ],
   "note": "Order, descriptors, attempts and progress for all histories. Lines are whole provided a send takes all it is given; a short send loses the rest of the line (refuted without the proviso). A failed send to a target fd:N ends the process by an assertion (refuted); proved: nothing else does."
  },
  {
   "property": "C54",
   "status": "partial",
   "theorems": [
    "dtmf_command_exact_partial",
    "dtmf_packets_pass_or_drop",
    "dtmf_reported_partial",
    "dtmf_due_once",
    "dtmf_due_exactly",
    "dtmf_overread_refuted",
    "dtmf_unknown_events_unreported_refuted",
    "dtmf_no_end_no_report_refuted",
    "dtmf_once_refuted",
    "dtmf_new_tag_used_refuted"
   ],
   "note": "Verdicts for all histories. Reports exact for packets without sources and extension, events other than 17, at most three events at once, tags up to 498 bytes that do not change; each proviso is shown to be needed by a refuted theorem. Command exact for numerals within int."
  },
  {
   "property": "C55",
   "status": "partial",
   "theorems": [
    "recording_counted",
    "recording_loaded_partial",
    "recorded_readable_partial",
    "cut_pcap_refused",
    "any_adhoc_safe",
    "ipv6_not_read_refuted",
    "pcap_ends_refuted",
    "pcap_inside_refuted",
    "recording_refused_refuted",
    "late_across_wrap_refuted",
    "sides_apart_refuted",
    "short_frame_refuted"
   ],
   "note": "Counting exact. Loading exact for files the accounting accepts, for sources that do not wrap around or arrive in order; refuted for late packets across a wrap, for IPv6 in pcap files, for the same source in both files. Hostile pcap files: refuted (endless loop, reads outside the file)."
  },
  {
   "property": "C56",
   "status": "partial",
   "theorems": [
    "configuration_exact_partial",
    "configuration_never_aborts",
    "setup_unambiguous",
    "answer_exact_partial",
    "wanted_unambiguous",
    "label_answered",
    "advertised_address_returned_refuted",
    "second_advertised_address_returned_refuted",
    "wildcard_advertised_refuted",
    "labelled_address_added_refuted",
    "empty_label_refuted",
    "advertised_address_not_empty_refuted"
   ],
   "note": "Partial because labels must not be empty (an empty label is not one: empty_label_refuted), and because promises of the manual fail: the address of -A is not returned without bridging, its second half is lost when both interfaces have one address, the advertised address of a wildcard is never returned, a labelled address of the other family cannot be added to a bridge, and the first half of -A can be empty. Memory is assumed for the objects made at the start."
  },
  {
   "property": "C57",
   "status": "partial",
   "theorems": [
    "queue_is_linearizable",
    "queue_conserves_items",
    "consumer_results_are_true",
    "producer_results_are_true",
    "queue_assertion_holds",
    "queue_accesses_inside_partial",
    "queue_accesses_inside_refuted",
    "consumer_does_not_wait",
    "producer_does_not_wait"
   ],
   "note": "Partial only in the accesses being inside of the array: a pop of more items than the capacity holds can read after the end of it (queue_accesses_inside_refuted); up to the capacity it does not (queue_accesses_inside_partial). Steps are sequentially consistent and the indices unbounded (2^64 items are not reached)."
  },
  {
   "property": "C58",
   "status": "partial",
   "theorems": [
    "packets_from_application_in_order",
    "packets_to_application_in_order",
    "packets_go_to_their_stream",
    "port_keeps_limits",
    "calls_tell_the_queue",
    "flush_is_honoured_partial",
    "flush_is_honoured_refuted",
    "worker_comes_to_rest",
    "push_queues_refuted",
    "dropped_for_newer_refuted",
    "destructor_returns_partial",
    "destructor_returns_refuted",
    "end_releases_everything",
    "port_numbers_distinct"
   ],
   "note": "Partial because the rest is false: with delayed stores a flush can be lost (flush_is_honoured_refuted), a push can drop its own packet (push_queues_refuted), a flush can drop a packet to the application (dropped_for_newer_refuted), the destructor hangs if the queue is full (destructor_returns_refuted). Each call on a queue is one step (C57)."
  },
  {
   "property": "C59",
   "status": "partial",
   "theorems": [
    "chains_do_what_commands_do",
    "subcommands_stop_at_failure",
    "lookup_subcommand_is_lookup",
    "delete_subcommand_is_delete",
    "time_to_live_as_set",
    "answer_restarts_timers",
    "chain_leaves_others_alone",
    "settings_go_to_their_stream",
    "type_of_service_as_set_partial",
    "failed_type_of_service_changes_nothing_refuted",
    "type_of_service_can_be_set_refuted",
    "setup_time_until_two_parties_refuted",
    "answered_port_is_in_table_refuted",
    "delete_subcommand_is_local_refuted"
   ],
   "note": "Partial because the rest is false: a failed S tos can change the RTP socket and is refused for ever after a move from IPv6 to IPv4, a repeated update with a new port ends the setup, a lookup after a delete answers a port of a removed session, and the delete sub-command also removes the media streams stored before. C and M sub-commands are results only; packet ports are not in the chain."
  },
  {
   "property": "C60",
   "status": "partial",
   "theorems": [
    "stun_reading_stays_inside_datagram",
    "stun_attributes_in_message",
    "stun_integrity_check_leaves_packet",
    "stun_written_messages_read_back",
    "stun_written_messages_on_wire",
    "stun_accepted_iff_integrity",
    "stun_forged_messages_add_nothing",
    "stun_replies_fit_and_read_back",
    "stun_binding_request_type",
    "stun_attribute_lengths_refuted",
    "stun_class_of_every_method_refuted"
   ],
   "note": "Partial because the rest is false: the reader of an address ignores the length of its attribute, and the class is computed from bits of methods from 16 on. Digests are arbitrary functions; allocation always succeeds."
  },
  {
   "property": "C61",
   "status": "partial",
   "theorems": [
    "ice_requests_answered",
    "ice_commands_known",
    "ice_unauthenticated_changes_nothing",
    "ice_completed_iff_nominated",
    "ice_fate_of_packets",
    "ice_removed_completely",
    "ice_commands_touch_one_side",
    "ice_no_address_before_completion",
    "ice_address_follows_nomination",
    "ice_candidate_added",
    "ice_candidates_come_from_commands",
    "ice_credentials_kept",
    "ice_start_reply",
    "ice_packet_released_once_refuted",
    "ice_rtcp_port_guarded_refuted",
    "ice_given_up_stays_normal_refuted",
    "ice_later_nomination_followed_refuted",
    "ice_start_reply_complete_refuted",
    "ice_user_name_exact_refuted",
    "ice_command_names_exact_refuted"
   ],
   "note": "Partial because the last sentence of the statement is false of the code, part by part. ice_no_address_before_completion and ice_address_follows_nomination are about histories in which no agent is given up (the refuted theorem shows why); the second also needs that the address of a stream is not looked at between two locks. Allocation succeeds and the queue has room."
  },
  {
   "property": "C62",
   "status": "partial",
   "theorems": [
    "dtls_nothing_passes_untouched",
    "dtls_packets_in_order",
    "dtls_media_in_from_handshake",
    "dtls_media_out_from_handshake",
    "dtls_verified_means_told",
    "dtls_connection_life",
    "dtls_removed_completely",
    "dtls_commands_touch_one_side",
    "dtls_fingerprint_told",
    "dtls_tell_granted_iff",
    "dtls_other_commands_answered",
    "dtls_wrong_certificate_refused",
    "dtls_right_peer_accepted",
    "dtls_fingerprint_text",
    "dtls_keys_layout",
    "dtls_two_ends_agree",
    "dtls_program_survives",
    "dtls_no_media_before_fingerprint_refuted",
    "dtls_new_fingerprint_enforced_refuted",
    "dtls_failed_command_harmless_refuted",
    "dtls_answer_after_early_hello_refuted",
    "dtls_retry_possible_refuted",
    "dtls_memory_bounded_refuted",
    "dtls_big_packet_refuted",
    "dtls_fingerprint_case_refuted",
    "dtls_command_names_exact_refuted",
    "dtls_ssrc_exact_refuted"
   ],
   "note": "Partial because the last sentence of the statement is false of the code, part by part. The TLS library is an oracle (any answers at each step) and the SRTP library three functions; dtls_two_ends_agree and dtls_program_survives ask laws of the latter. The datagrams the handshake sends, times to live and statistics are not modelled, nor the chains of the RTCP streams, in which the module has no processors."
  },
  {
   "property": "C63",
   "status": "partial",
   "theorems": [
    "eaud_g711_expanded",
    "eaud_stream_ends",
    "eaud_sane_stream_played",
    "eaud_stream_laid_out",
    "eaud_streams_mixed",
    "eaud_base_is_first",
    "eaud_recording_extracted",
    "eaud_files",
    "eaud_mulaw_silence_refuted",
    "eaud_written_count_refuted",
    "eaud_no_sync_extracts_refuted",
    "eaud_gsm_payload_refuted",
    "eaud_g729_payload_refuted",
    "eaud_long_payload_refuted",
    "eaud_timestamp_restart_refuted",
    "eaud_other_g729_refuted",
    "eaud_only_extracted_removed_refuted"
   ],
   "note": "Partial because the last sentence of the statement is false of the code, part by part. Times are whole microseconds and exact where the program has doubles; the codecs of libraries are functions of which only the number of samples is asked; what packets late by more than 0.2 s or timestamps ahead by a second give is not described (only that the stream ends); the range of the sum of two samples is not checked (int32_t holds it)."
  },
  {
   "property": "C64",
   "status": "partial",
   "theorems": [
    "csv_row_reads_back",
    "csv_ssrc_reads_back",
    "csv_node_name_fresh",
    "csv_whole_rows",
    "csv_one_outcome",
    "csv_no_row_lost",
    "csv_no_deadlock",
    "csv_calls_bounded",
    "csv_rotation_followed",
    "csv_any_call_id_refuted",
    "csv_big_file_refuted",
    "csv_truncation_refuted",
    "csv_header_retried_refuted",
    "csv_descriptor_owned_refuted",
    "csv_recovers_refuted",
    "csv_short_write_refuted"
   ],
   "note": "Partial because the last sentence of the statement is false of the code, part by part. %f conversions are given as texts; the buffer is taken to hold the whole row (C10); inodes are never reused; running out of memory is not modelled."
  },
  {
   "property": "C65",
   "status": "partial",
   "theorems": [
    "mif_numbers",
    "mif_lookup",
    "mif_offered_once",
    "mif_lost_only_when_full",
    "mif_delivered",
    "mif_freed_once",
    "mif_rtcp_freed_once",
    "mif_module_life",
    "mif_shutdown_waits",
    "mif_shutdown_complete",
    "mif_shutdown_ends",
    "mif_failed_load_refuted"
   ],
   "note": "Partial because the last sentence is false of the code (mif_failed_load_refuted); the other theorems are about histories in which no load fails. Each module has one queue, kept as a list (the ring and list behind it are C16); reference counts are atomic; the thread of a module with only a worker interface is taken to obey SIGTERM as the accounting thread does."
  },
  {
   "property": "C66",
   "status": "partial",
   "theorems": [
    "ecry_option",
    "ecry_key_unique",
    "ecry_key_fits",
    "ecry_first_ssrc",
    "ecry_every_ssrc_refuted",
    "ecry_adhoc_key_refuted"
   ],
   "note": "Partial because decryption of every packet is false of the code: only the SSRC of the first packet of a capture is decrypted (ecry_first_ssrc, ecry_every_ssrc_refuted) and the key is ignored for the format of the proxy (ecry_adhoc_key_refuted). The SRTP library is a parameter: what srtp_unprotect gives for a packet of a stream, after those before it."
  },
  {
   "property": "C67",
   "status": "partial",
   "theorems": [
    "mann_alaw",
    "mann_ulaw",
    "mann_monotone",
    "mann_recode",
    "mann_recode_refuted",
    "mann_files",
    "mann_g711_loop",
    "mann_ends",
    "mann_short_loop_refuted",
    "mann_read_error_refuted",
    "mann_vad_refuted",
    "mann_close_refuted"
   ],
   "note": "Partial because these parts are false of the code: the mu-law byte 127 (mann_recode_refuted), recordings of less than 160 samples with -L for codecs other than G.711 (mann_short_loop_refuted), read errors (mann_read_error_refuted), errors of fclose (mann_close_refuted), and -v (mann_vad_refuted). The samples beyond the largest mu-law level are clipped, as in the standard. The encoders for GSM, G.722 and G.729 are parameters."
  },
  {
   "property": "C68",
   "status": "partial",
   "theorems": [
    "ctl_forms",
    "ctl_host_port",
    "ctl_opened",
    "ctl_removed",
    "ctl_ipv6_port_refuted",
    "ctl_twice_refuted",
    "ctl_file_kept_refuted",
    "ctl_failed_start_refuted",
    "ctl_port_left_out_refuted"
   ],
   "note": "Partial because these parts are false of the code: an IPv6 address without a port (ctl_ipv6_port_refuted), a path given twice (ctl_twice_refuted), files that are not sockets are removed (ctl_file_kept_refuted), a failed start leaves sockets (ctl_failed_start_refuted), and the control port is not kept out of the media ports (ctl_port_left_out_refuted). The resolver, sd_listen_fds() and the results of system calls are parameters; unlink() fails for directories only."
  },
  {
   "property": "C69",
   "status": "partial",
   "theorems": [
    "rcvf_packet",
    "rcvf_time_partial",
    "rcvf_time_refuted",
    "rcvf_simple",
    "rcvf_none",
    "rcvf_whole_refuted",
    "rcvf_drain",
    "rcvf_drain_all_refuted"
   ],
   "note": "Partial because the time of the kernel is used only if it comes before the address (rcvf_time_partial, rcvf_time_refuted); also false of the code: datagrams beyond 8192 bytes are cut (rcvf_whole_refuted) and an error ends draining (rcvf_drain_all_refuted). Modelled is the build without IP_RECVDSTADDR and SO_TS_CLOCK; times are integers instead of doubles; the kernel is a queue of datagrams and errors."
  },
  {
   "property": "C70",
   "status": "partial",
   "theorems": [
    "sysl_refines",
    "sysl_order",
    "sysl_dropped",
    "sysl_written",
    "sysl_exit",
    "sysl_late_refuted",
    "sysl_text",
    "sysl_text_error_refuted"
   ],
   "note": "Partial because these parts are false of the code: a line that a thread puts after the item that ends the log is lost (sysl_late_refuted), and an error of vsnprintf() moves the end of the text back by one, before the buffer if the prefix is empty (sysl_text_error_refuted). What is done under a mutex is one step; the number of dropped lines is counted but never reported."
  },
  {
   "property": "C71",
   "status": "proved",
   "theorems": [
    "tick_whole",
    "tick_one",
    "tick_progress",
    "tick_unbounded_refuted",
    "tick_errno_refuted",
    "tick_levels",
    "tick_level_names",
    "tick_shown"
   ],
   "note": "More than 2^32 threads at once would break it (tick_unbounded_refuted, with counters of one bit). A finding beside the property: the error number reported may be that of the wait for the lock (tick_errno_refuted). Writes to the stream do not fail; atomics are sequentially consistent."
  },
  {
   "property": "C72",
   "status": "proved",
   "theorems": [
    "mall_rzmalloc",
    "mall_rmalloc",
    "mall_zmalloc",
    "mall_none",
    "mall_wrap_refuted"
   ],
   "note": "The bound on the size is needed (mall_wrap_refuted); the sizes used in the code are those of structures and far below it. The build without RTPP_CHECK_LEAKS."
  }
 ]
}