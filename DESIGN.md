# Formal model of sippy/rtpproxy in Rocq (Coq 8.16.1)

## Layout

`rocq/theories/` holds, per component `X`:

* `XModel.v` – executable Gallina model, one definition per C function, each with a comment
  citing file and lines in `/repo`, and naming simplifications;
* `XSpec.v`  – (where the property needs one) a small independent specification;
* `XProof.v` – lemmas;
* `XThm.v`   – the property theorems only (each closed by `exact lemma`), with concrete
  `Example`s showing the hypotheses are met by non-trivial states and `Print Assumptions`.

`MANIFEST.json` maps property ids to theorem names. `properties.jsonl` is generated by
`tools/mkprops.py`. `seeded/LOG.jsonl` is the log of seeded-bug experiments.

## Conventions of the models

* Bytes are `N`/`Z` below 256; machine integers are `Z`/`N` with explicit `mod 2^n` wrap where the
  code can wrap. A loop is structural recursion, a fold, or recursion on fuel with a distinct
  out-of-fuel result that the theorem excludes.
* Undefined behaviour, failed `assert`, `abort()` and out-of-bounds accesses are distinct
  outcomes of the model (`Abort`, `OOB`, `None` of a checked read ...), never assumed away.
* Threads are interleaved step machines: one step per atomic access or per critical section
  (critical sections are atomic because the mutex excludes others; what is in one step is cited).
* Memory allocation is assumed to succeed unless the comment says a failure branch is modelled.
* Logging, debug-only code (`RTPP_DEBUG`, `RTPP_DBG_ASSERT`) is not modelled.

## Plan per property

| id | what is modelled | how it is proved |
|----|------------------|------------------|
| C01 | `rtp_packet_parse_raw` on byte lists with checked reads | equivalence with a grammar-style relational spec; no `OOB` result |
| C02 | the three classifiers on byte lists | case analysis for all lists |
| C03 | resizer enqueue/get over packet records | invariant + multiset/sequence of payload bytes preserved |
| C04 | port table walk over arbitrary permutation | list induction, permutation lemmas |
| C05 | ring buffer as array+head | refinement to a bounded list |
| C06 | TTL operations | invariant over op lists |
| C07 | sweep over a session list with TTLs | refinement to idle-time spec |
| C08 | fetch-and-add per thread | interleaving induction |
| C09 | atomic counters + CAS slot table, thread steps | interleaving invariant |
| C10 | sbuf with allocation length | invariant + content spec |
| C11 | buckets with arbitrary hash, resize | refinement to association list |
| C12 | registry over C11's map | history induction |
| C13 | refcount steps per thread | interleaving invariant |
| C14 | wref counter protocol | interleaving; expected refutation for two concurrent readers |
| C15 | lock as step machine with cnt_lock/write_lock | N-thread invariant |
| C16 | circular buffer + list | refinement to list |
| C17 | task queue, process, cancel | history induction |
| C18 | handler chain | induction over handler list |
| C19 | pearson table construction for any permutation | finite perfect-hash argument |
| C20 | SWAR tokenizer on 64-bit words | bit-level lemma + refinement to byte tokenizer |
| C21 | command_split over tokens | refinement to grammar |
| C22 | pre_parse decision table | case analysis over all commands/counts |
| C23 | cache + clean-up | history induction |
| C24 | reply object with asserts as outcomes | bounds invariant; refutations for long cookies |
| C25 | quote/unquote | round trip by induction |
| C26 | listener creation over syscall outcome oracle | induction over ports/outcomes |
| C27 | bind address list | history induction |
| C28 | tag comparison, find_stream | equivalence to spec |
| C29 | delete over session list | equivalence to filter spec |
| C30 | U/L port logic over session table | history induction |
| C31 | query reply builder | equivalence to spec |
| C32 | update log + replay | refinement |
| C33 | latching state machine | history induction |
| C34 | seq tracking with bitmaps, wraps | invariant vs. true extended sequence numbers |
| C35 | checksum loops | modular arithmetic |
| C36 | target lookup | equivalence to spec |
| C37 | stream buffer + line extraction | segmentation independence |
| C38 | record buffer | refinement to concatenation |
| C39 | recorder presence state machine | history invariant |
| C40 | player step | arithmetic + history induction |
| C41 | wake-up thread step machine | interleaving invariant |
| C42 | conversions over exact doubles/rationals | arithmetic; expected refutation |
| C43 | pollset loop | induction |
| C44 | sender loop over send outcome oracle | induction |
| C45 | copy handlers over a copy graph | expected refutation on cycles; termination on acyclic graphs |
| C46 | strtol based parsing | equivalence to spec; expected refutation on 2^32 wrap |
| C47 | capability table | finite |
| C48 | recfilter over rationals | history; expected refutation |
| C49 | play/stop/end/start of announcements as steps under the two locks | invariant over all schedules; expected refutation where a player is moved between tables |
| C50 | arrivals, threads (receive, chain, transmit as separate steps), commands and ends of sessions | traces: conservation and counters by invariants over all interleavings; expected refutation for floods |
| C51 | loop over a block of memory with explicit positions and over-reads | grammar and meaning as separate relations; equivalence for all strings |
| C52 | RTCP packets as bytes, text through the growable buffer of C10, JSON and RTCP formats as separate specifications | by induction over compound packets; every byte string is well formed or rejected |
| C53 | queue, delivering thread and sockets as one state; a step is one system call with its answer | invariants of the state and monitors over the trace, by induction over operations |
| C54 | configuration, history of four events, queue and worker of the module as executable functions; events are what other parts see | the worker refines the list function reports; invariant per stream by induction over operations |
| C55 | files as lists of bytes with the page semantics of mmap, dissectors, scanners and loaders as fuel functions | induction over the records; insertion as a fold per source, sorting invariant; composition with the recorder of C38 |
| C56 | options as a list with their texts, the list of bind addresses of C27 with the advertised addresses by object number, the modifiers of C51; name service and inet_ntop as parameters | a relation for the texts and one for the meaning of the options; the code is turned into a function of the first option of each family (independent of indices), then exactness by cases with the list of entries as the state, uniqueness of the meaning; the answer by a characterisation of the objects found by label, by family and by direction |
| C57 | the shared members and each thread with its local variables at each access; a step is one access of one thread | invariant over all schedules with the history of events as ghost state: slots between the indices hold the items put in, a consumer whose index is still current has read the right items; a history is legal by an inductive relation on lists |
| C58 | the three queues, the table of streams, the application and the worker as programs with a place each; a queue operation is one step (justified by C57), stores of the producer can be delayed | invariant over all schedules with the history as ghost state; a potential for the worker coming to rest; induction over allocations |
| C59 | the session table of SessModel, for each session the timers, types of service and sockets, a cursor for the session and stream of a chain | every chain is matched with single commands; invariant over histories that relates timers and sockets to the list of settings |
| C60 | reader and writer over lists of bytes, with separate outcomes for going past the end and for not ending | induction over attribute lists; every attribute takes at least its minimal bytes, so the subtractions in the checks cannot wrap |
| C61 | a session as two RTP and two RTCP streams (C33), four chains of processors, agents and the queue; commands, packets, thread steps, updates and locks as operations | invariant over histories: chains are those of the agents, pairs are completed, queued packets belong to the side of their agent; for addresses a second invariant (one agent per side, mode FORCE_OFF until completion) and a settled address from then on |
| C62 | a connection as state, role, contexts, fingerprint, ssrc and timer; a session as two chains, connections and the queue; commands, packets, thread steps and timers as operations, with the answers of the TLS library as arguments | invariant over histories: both chains refer to the connection of the side, one that no chain refers to is dead, one that is up has contexts; a relation of all ways a connection moves in one step; origin of contexts and fingerprints by induction over the history |
| C63 | the decoder as a function from its state to a result that can also be an access outside a buffer, a failed assertion or an undefined conversion; main as rounds over the two lists of channels | well-founded induction on packets left and ticks to fill; placement by induction over the packets; an invariant of the rounds: which channels are left, which are active, in what order, and what each decoder still plays |
| C64 | the row as a list of texts joined by commas; files, locks and proxies as a transition system with one step for each system call and its result | splitting the row again; an invariant of all schedules: who holds a lock is at work, what a proxy knows of the size is still so, every file is its start, a header and the rows logged; a decreasing count of calls |
| C65 | modules, sessions, queues and reference counts as a transition system, with one step for each turn of the loops of session destructor, module thread and shutdown | invariants over all runs: phases, references counted over sessions and queues, what was taken against what was handed over; a measure for the shutdown |
| C66 | the argument as a list of bytes, the decoder with the arithmetic of C; the packets of a recording through the context that is made with the first one | decoding and encoding are inverse, by induction over blocks; the context keeps one SSRC, by induction over packets |
| C67 | the tables as runs of equal entries; main as a loop over frames with one buffer for all codecs | the cells of the standard are checked against the runs once for each of the 256 codes and extended to all samples by order; the slices read are cut from the recording by induction, and the files are the encodings of the slices |
| C68 | prefixes and the last colon as functions on bytes; the file system as a function from paths, with a list of answers of system calls | the table of forms is checked case by case; induction over the list of sockets with the paths that may change |
| C69 | recvmsg() as a queue of datagrams with lists of control messages; the loop over them as a function | induction over the control messages, with the first address and the last time given by splits of the list |
| C70 | the pool with its next pointers, the free list and the queue with its tail; steps of threads in any order | refinement to a queue of lines with a number of free places: both lists are chains through the pool without common items; then an invariant of the queue |
| C71 | the two counters modulo 2^32 and threads that take a ticket, look, write pieces and release | invariant: the threads that wait have the tickets after the one served, in order, and are no more than the modulus |
| C72 | memory as a function from addresses, the allocator as a parameter that gives aligned bytes | the masks are remainders for powers of two; then linear arithmetic |

## What is modelled

Line numbers refer to `/repo/src` unless a path is given. Every definition in a model file carries
its own citation; this table is the overview.

| component | property | code modelled |
|-----------|----------|---------------|
| Rtp | C01 C02 | rtp.c (parser), rtp_packet.c (classifiers) |
| Rsz | C03 | rtp_resizer.c:70-424, rtp.c:128-242, rtp_packet.c:50-75, 121-135 |
| Port | C04 C26 | rtpp_port_table.c, rtpp_create_listener in rtpp_command.c |
| Ringbuf | C05 | rtpp_ringbuf.c |
| Ttl | C06 C07 | rtpp_ttl.c, TTL part of rtpp_pipe.c, idle sweep of rtpp_proc_ttl.c |
| Genuid | C08 | rtpp_genuid.c |
| Pcount | C09 | rtpp_pcount.c, rtpp_pcnt_strm.c |
| Sbuf | C10 | rtpp_sbuf.c |
| Hash | C11 | rtpp_hash_table.c |
| Weakref | C12 | rtpp_weakref.c |
| Refcnt | C13 | rtpp_refcnt.c |
| Wref | C14 | rtpp_wref.c with the accesses of rtpp_refcnt.c it races with |
| Rwl | C15 | rtpp_rw_lock.c:88-141 |
| Queue | C16 | rtpp_queue.c:51-529 |
| Timed | C17 | rtpp_timed.c:102-390 |
| Pproc | C18 | advanced/pproc_manager.c:60-325 |
| Stats | C19 | rtpp_pearson.c:35-59, rtpp_pearson_perfect.c:57-114, rtpp_stats.c:83-114, 152-163, 264-335 |
| Split, Str | C20 C21 | rtpp_util.c:545-577 (rtpp_strsplit), rtpp_command.c:362-463 |
| Parse | C22 C47 | rtpp_command_parse.c:62-291, parsing parts of rtpp_command.c:465-600 |
| Rcache | C23 | rtpp_command_rcache.c, rtpp_command.c:335-360, rtpp_command_reply.c:129-168, rtpp_command_async.c:177-222 |
| Reply | C24 C31 | rtpp_command_reply.c:61-299, commands/rpcpv1_query.c, reply builders |
| Quote | C25 | rtpp_util.c:283-361 |
| Addr, Bind | C27 | rtpp_network.c:52-173, rtpp_bindaddrs.c |
| Sess | C28 C29 C30 | rtpp_session.c:341-431, commands/rpcpv1_delete.c:75-164, rtpp_command.c:489-698 (parts), commands/rpcpv1_ul.c:648-994 (parts), rtpp_proc_ttl.c:82-109 |
| Poll | C32 | rtpp_sessinfo.c:143-485, rtpp_stream.c:955-979, 1061-1064 |
| Latch | C33 | rtpp_stream.c:645-920, 1129-1249, rtpp_netaddr.c |
| Ana | C34 | rtp_analyze.c:210-220, 291-524, rtpp_analyzer.c:94-135 |
| Cksum | C35 | rtpp_network.c:265-306, rtpp_ip_chksum.h:27-70 |
| Tnot | C36 | rtpp_tnotify_set.c |
| Cstream | C37 | rtpp_command_stream.c:56-168, rtpp_command_async.c:224-264 |
| Rec | C38 | rtpp_record.c:101-125, 256-275, 293-311, 330-696 |
| Rrc | C39 | commands/rpcpv1_copy.c:96-177, rpcpv1_norecord.c:66-83, rtpp_record.c:167-291, rtpp_stream.c:457-458, rtpp_proc_async.c:307-309 |
| Srv | C40 | rtpp_server.c:89-286, rtpp_proc_servers.c:124-147 |
| Wake | C41 | rtpp_proc_wakeup.c:52-132, 179-207 |
| Time | C42 | rtpp_time.c:61-80 |
| Ctlpoll | C43 | rtpp_command_async.c:73-80, 299-472, 543-595 |
| Netio | C44 | rtpp_netio_async.c:86-181, 202-284, 379-393, rtpp_wi_pkt.c:70-169 |
| Fork | C45 | commands/rpcpv1_ul_subc_copy.c:61-307, advanced/pproc_manager.c:136-298 (without threads) |
| Num | C46 | rtpp_util.c:363-425 |
| Filt | C48 | rtpp_math.c:32-78 |
| Plr | C49 | rtpp_stream.c:379-391, 490-627, 790-811, rtpp_proc_servers.c:96-147, 283-332, rtpp_hash_table.c:553-576, commands/rpcpv1_play.c:98-132 |
| Relay | C50 | rtpp_proc.c:67-185, rtpp_proc_async.c:268-299, rtpp_stream.c:219-241, 799-811, 1070-1088, 1180-1249, rtpp_pcnt_strm.c:108-132, rtpp_pipe.c:186-239, rtpp_session.c:283-302 |
| Opts | C51 | commands/rpcpv1_ul.c:181-190, 208-219, 261-519, rtpp_network.c:328-375 |
| Rtcp | C52 | modules/acct_rtcp_hep/rtcp2json.c:117-286, rtcp.h:69-106, 120-152, rtpp_acct_rtcp_hep.c:119, 210-220 |
| Notf | C53 | rtpp_notify.c:86-108, 155-265, rtpp_tnotify_set.c:282-287, 368-369 |
| Dtmf | C54 | catch_dtmf/rtpp_catch_dtmf.c (all but constructors and logs) |
| Load | C55 | extractaudio/rtpp_loader.c, eaud_pcap.c, eaud_adhoc.c, rtpp_scan_pcap.c, rtpp_scan_adhoc.c, extractaudio.c:124-233 |
| Conf | C56 | src/main.c:498-524, src/rtpp_bindargs.c, src/rtpp_network.c:377-398, src/commands/rpcpv1_ul.c:141-146, 782-784 |
| Spmc | C57 | external/RTQueue/src/SPMCQueue.c |
| Pport | C58 | src/rtpp_packetport.c |
| Chain | C59 | src/commands/rpcpv1_ul.c, src/commands/rpcpv1_query.c, src/commands/rpcpv1_ul_subc.c, src/commands/rpcpv1_delete.c, src/commands/rpcpv1_ul_subc_set.c |
| Stun | C60 | external/libre/src/stun/hdr.c, attr.c, addr.c, msg.c, rep.c; external/libre/src/mbuf/mbuf.c:334-470; libre/rtpp_re.c:41-46 |
| Ice | C61 | modules/ice_lite/rtpp_ice_lite.c; external/libre/src/ice/stunsrv.c, cand.c:210-229, candpair.c, comp.c:30-63, util.c:75-92; libre/rtpp_re_icesdp.c; src/advanced/pproc_manager.c:135-298; src/rtpp_proc.c:89-99 |
| Dtls | C62 | modules/dtls_gw/rtpp_dtls_gw.c; modules/dtls_gw/rtpp_dtls_conn.c:71-131, 200-549, 661-902; modules/dtls_gw/rtpp_dtls_util.c; modules/dtls_gw/rtpp_dtls.c:59-63 |
| Eaud | C63 | extractaudio/decoder.c:52-300; extractaudio/eaud_substreams.c:34-74; extractaudio/extractaudio.c:139-177, 411-575; src/g711.h:34-116 |
| Csv | C64 | modules/acct_csv/rtpp_acct_csv.c:88-424; src/rtpp_network.c:197-220 |
| Mif | C65 | src/rtpp_module_if.c:238-539; src/rtpp_modman.c:59-176; src/rtpp_session.c:199-204, 306-323; src/rtpp_cfile.c:195-233; src/main.c:317-318, 825-837, 1143-1150 |
| Ecry | C66 | extractaudio/eaud_crypto.c:61-202; extractaudio/srtp_util.c:49-92; extractaudio/rtpp_loader.c:161-200, 285-303 |
| Mann | C67 | makeann/makeann.c:48-276; src/g711.h:118-2235 |
| Ctl | C68 | src/rtpp_controlfd.c:85-284, 313-371; src/main.c:356, 1019-1031; src/rtpp_port_table.c:129 |
| Rcvf | C69 | src/rtpp_network_io.c:40-119; src/rtpp_socket.c:59-64, 280-370, 390-417; src/rtp_packet.h:37, 66 |
| Sysl | C70 | src/rtpp_syslog_async.c:49-290 without the set-up of the mutexes |
| Tick | C71 | src/rtpp_log_stand.c:59-62, 143-199, 227-288, 333-341; src/rtpp_log_stand.h:44-48 |
| Mall | C72 | src/rtpp_mallocs.c:41-145 |

## What is not modelled

* `main.c` and the configuration apart from -l, -6, -A and -s, daemonising, logging (`rtpp_log*`) apart from the syslog thread (C70) and the lock and the levels of `rtpp_log_stand.c` (C71), `rtpp_memdeb.c`,
  `rtpp_cfile.c` apart from the loading of modules (C65), `rtpp_csock_addrlen` and the buffers of sockets in `rtpp_controlfd.c` (the rest is C68), library mode apart from the packet port (C58).
* Modules (`modules/*` except catch_dtmf (C54), ice_lite (C61), dtls_gw (C62) and acct_csv (C64)), the TLS and SRTP libraries, the parts of ICE the lite module does not use, crypto, RTCP decoding for accounting
  (`rtpp_acct_rtcp.c`); output formats of `extractaudio`; `external/*` except RTQueue (C57) and the STUN messages and the ICE server of libre (C60, C61).
* `rtpp_acct*.c`, derived counters and printing of statistics; jitter values (floating point).
* The C library and the kernel: `read`, `write`, `sendto`, `epoll`, name resolution and allocation are
  inputs (oracles) wherever a model uses them, so theorems hold for every behaviour unless a hypothesis
  says otherwise. Doubles are exact bit patterns in Time, abstract in Filt, integers elsewhere.
* Weak memory: a step of a thread machine is sequentially consistent.

## Findings

Each line is a theorem ending in `_refuted` (a computed witness that a natural reading of a property
fails), or a fact noted while reading the code which is outside the models.

Proved by witness:

* `ttl_reset_race_refuted`: unsynchronised `reset_with` and decrement lose an update.
* `datagram_classes_disjoint_refuted`: STUN is recognised by its magic word alone.
* `port_offered_once_random_refuted`, `port_free_but_refused_refuted`: random port order may offer a
  port twice and refuse while one is free.
* `uid_never_none_refuted`: the first unique id equals "no id".
* `drop_report_five_locations_refuted`: more than four drop locations are not reported.
* `sbuf_zero_size_refuted`: a buffer of size zero is written out of bounds.
* `hash_table_transfer_dup_refuted`, `wref_*_refuted` (three races that hand out a dying target).
* `owner_unlocks_refuted`: the last reader unlocks a mutex another thread locked.
* `batching_needs_pump_refuted`; `cancel_during_callback_refuted`, `zero_period_hangs_refuted`,
  `shutdown_hangs_refuted`.
* `clone_keeps_processors_refuted`, `processors_are_freed_refuted`: cloned chains borrow references of
  the original; the 24th destructor slot is lost.
* `url_unquote_overread_refuted`, `atoi_safe_truncates_refuted`.
* `reply_no_abort_refuted`, `query_default_overflow_refuted`: cookies near 1 KB.
* `init_overflow_refuted`: more than 100 control sockets overrun the table.
* `delete_dialog_refuted`, `weak_release_refuted`, `failed_update_changes_address_refuted`.
* `order_across_sources_refuted`, `timing_g722_refuted`, `padding_refuted` (resizer).
* `released_after_stop_refuted` (sender); `overflow_refuted`, `suspended_clock_refuted`,
  `invalid_deadline_refuted` (wake-up thread); `timespec_valid_refuted`; `min_is_least_refuted`.
* `zero_checksum_refuted`; `bridged_overflow_refuted`, `bridged_unreadable_refuted`,
  `short_write_refuted` (recording).
* `same_address_same_object_refuted` (labelled alias), `configured_name_found_refuted` (path with a
  colon).
* `late_packet_discarded_refuted`, `update_lets_the_peer_in_refuted`, `peer_stays_latched_refuted`.
* `start_after_wrap_refuted`, `ssrc_change_after_wrap_refuted`, `marker_at_wrap_refuted`,
  `first_overtaken_refuted`, `window_is_535_refuted` (packet accounting).
* `playback_ends_refuted`: a payload type the player does not know never ends.
* `lost_log_refuted`, `failed_removal_refuted`: memory shortage in the poll table.
* `copy_success_means_copied_refuted`, `recorders_have_own_files_refuted`,
  `directions_have_own_files_refuted`, `restarted_has_own_file_refuted`,
  `stop_while_relaying_safe_refuted` (recordings).
* `processing_always_ends_refuted`: circular copies recurse for ever; `failed_copy_aborts`: a failed
  registration of a copy ends in `abort()`.
* `stopping_is_effective_refuted`, `one_player_refuted`, `muting_ends_refuted`,
  `players_never_deadlock_refuted`: a stop command misses a player that is just being moved from the
  waiting to the running ones; two announcements play at once, the media of the other side stays
  dropped after both have ended, and the command thread and the player thread can wait for each other
  for ever. Copying a session with an announcement into another one is enough for the deadlock.
* `failed_play_counts_as_playing_refuted`: the stream counts as playing after a play that failed.
* `turn_is_short_refuted`: packets that are ignored do not count against the limit of a turn, so that a
  flood from a wrong address keeps the thread away from all other sessions.
* `received_is_relayed_or_discarded_refuted`: packets for an incomplete session count as discarded but
  not as received. `times_of_the_right_party_refuted`: the times of the first packets are logged with
  caller and callee exchanged.
* `packet_time_exact_refuted`: `z4294967316` is taken as `z20`. `rtcp_port_follows_refuted`: for a remote
  RTP port of 65535 RTCP goes to port 0.
* `loss_counts_refuted`: RTCP_GET_LOST prints -1 for every loss count whose third byte is odd and halves that byte
  otherwise: 65536 and 196608 lost packets both appear as -1. `complete_report_kept_refuted`: a datagram with a complete
  report followed by a truncated packet yields no report at all.
* `never_aborts_refuted`: when a send() to a target fd:N fails, the retry asserts in
  reconnect_handler and the whole process ends. `lines_whole_refuted`: a short send() loses the rest of a line and glues the
  next notification to the piece; it still counts as delivered.
* catch_dtmf: `dtmf_overread_refuted`: the return value of snprintf is used as the length of the text, so a tag of 500
  bytes or more sends bytes of the stack behind the buffer to the target. `dtmf_unknown_events_unreported_refuted`: event 17
  passes the check and is reported with a NUL for symbol. `dtmf_no_end_no_report_refuted`: contributing sources in the
  header are taken for the event. `dtmf_once_refuted`: the fifth event makes the first one forgotten, late copies report it
  again. `dtmf_new_tag_used_refuted`: a second command succeeds but its tag is ignored.
* extractaudio: `pcap_ends_refuted`: a record of another protocol with the length 0xFFFFFFF0 makes the scan and the load loop
  forever (the position is advanced by a signed sum). `pcap_inside_refuted`: with other lengths it reads in front of the
  file, behind it, or overflows a signed sum; a file of the older format that ends in the last 28 bytes of a page is read beyond
  its mapping. `ipv6_not_read_refuted`: what rtpproxy records for IPv6 in pcap format is skipped. `recording_refused_refuted`: a
  packet that is late across the wrap of the number makes the whole file be refused, `late_across_wrap_refuted`: or comes out
  of order. `sides_apart_refuted`: a source in both files is put on one side. `short_frame_refuted`: a short frame of another
  kind at the end makes a file unreadable.
* Addresses to listen on: `advertised_address_returned_refuted`: -A without bridging is accepted and ignored, although rtpproxy.8:264 says the
  address is returned. `second_advertised_address_returned_refuted`: with both interfaces of a bridge on one address the second half of -A is lost. `wildcard_advertised_refuted`: the advertised
  address of a wildcard (-l *=1.2.3.4) is never returned. `labelled_address_added_refuted`: a labelled address of the other family cannot be added to a
  bridge; the first argument of each family is taken for an interface of it. `empty_label_refuted`: an empty label (-l @host) is none, and the address is
  merged with an equal one. `advertised_address_not_empty_refuted`: -A /x is accepted and makes answers with an empty address.
* The queue between threads: `queue_accesses_inside_refuted`: try_pop_many with more items asked for than the capacity reads after the end of the array if
  other consumers go round the array between its loads of the two indices (SPMCQueue.c:310-323: the count is taken from a stale index and not limited by the
  capacity; the values are discarded by the failed compare-and-exchange, the read is still outside). rtpp_packetport_try_pop_many passes the number on from the caller. Outside of the model
  (memory order): the cached index of the writer is loaded and stored relaxed (lines 110-111, 118-119), so a consumer that takes it from another consumer
  has no acquire that pairs with the release of the producer before it reads the slots.
* The packet port: `flush_is_honoured_refuted`: rtpp_packetport_flush loads out_run relaxed after the release store of the index of the queue (rtpp_packetport.c:462-480); on a machine with
  store buffers the load can be done first, the flush is taken for one already queued and the packet stays. `push_queues_refuted`: rtpp_packetport_push
  (421-433) drops the new packet if the thread of the port empties the queue between the failed push and the pop. `dropped_for_newer_refuted`: a flush signal met while the queue to the
  application is full drops the oldest packet in it, although no packet follows. `destructor_returns_refuted`: rtpp_packetport_dtor_obj (535-540) ignores that its signal could not be
  queued and joins the thread for ever. Outside of the model: a capacity that is no power of two is accepted by ctor_args_valid and fails the assertion of create_queue.
* Sub-commands: `failed_type_of_service_changes_nothing_refuted`: rtpp_subcommand_set_handler (rpcpv1_ul_subc_set.c:106-116) sets the RTP socket first and leaves it when the RTCP one
  fails. `type_of_service_can_be_set_refuted`: a new port on another address changes laddr of the RTP stream only (rpcpv1_ul.c:701-704), so after a move from IPv6 to IPv4 the test of the
  family of the RTCP stream fails for ever. `setup_time_until_two_parties_refuted`: rpcpv1_ul.c:748-755 marks a session complete as soon as any port is opened again, so a repeated
  update that asks for a new port gives a session with one party the full time to live. `answered_port_is_in_table_refuted`: a lookup after a delete in one chain opens and answers a
  port of the removed session. `delete_subcommand_is_local_refuted`: the delete sub-command matches the tag of its session as a prefix and removes other media streams.
* STUN: `stun_attribute_lengths_refuted`: stun_addr_decode (addr.c:76-124) is not given the length of the attribute, so an address attribute that says it is empty swallows the
  attributes after it. `stun_class_of_every_method_refuted`: STUN_CLASS (stun.h:22-23) ORs bits of the method into the class. A reply whose SOFTWARE text, made from VERSION, ARCH and
  OS at build time, is longer than about 170 bytes ends the process (mem_realloc is abort(), see `stun_reply_ex`).
* ICE: `ice_packet_released_once_refuted`: rtpp_pproc_mgr_handleat (pproc_manager.c:180-235) releases a dropped packet in the chain it was passed to and again in the chain that
  passed it on (RTCP at the RTP port: twice, with agents on both sides three times). `ice_rtcp_port_guarded_refuted`: nothing checks what comes to the RTCP port of a side with an agent.
  `ice_given_up_stays_normal_refuted`: a packet queued before D or U makes the thread set the mode of the stream to forced afterwards. `ice_later_nomination_followed_refuted`: a second
  nomination is granted and not followed. `ice_start_reply_complete_refuted`: APPEND (rtpp_ice_lite.c:399-400) leaves out what does not fit. `ice_user_name_exact_refuted`: the pattern
  of stunsrv.c:259-260 is not anchored. `ice_command_names_exact_refuted`: the first two bytes of a command are OR-ed (rtpp_ice_lite.c:535). Also: the keys pvt + 1 and pvt + 2 of the
  processors point past the allocation of the module; the component of a candidate is taken modulo 256, and component 0 matches any in the check for duplicates; S can fail after it
  made the agent.
* DTLS gateway: `dtls_no_media_before_fingerprint_refuted`: after S and before A or P any peer that completes a handshake is let in (rtpp_dtls_conn.c:432-436 compares only if there is a
  fingerprint) and later commands do not check it. `dtls_new_fingerprint_enforced_refuted`: a fingerprint told for a connection that is up is stored and has no effect.
  `dtls_failed_command_harmless_refuted`: the fingerprint is stored before the ssrc is parsed. `dtls_answer_after_early_hello_refuted`, `dtls_retry_possible_refuted`: once the state is
  not RDC_INIT with the mode still actpass, A and P fail until the gateway is removed. `dtls_memory_bounded_refuted`: records for a connection that is up are written to sbio_in and never
  read. `dtls_big_packet_refuted`: srtp_protect writes past data.buf for packets that fill it. `dtls_fingerprint_case_refuted`: hex digits in small letters are accepted and never
  match. `dtls_command_names_exact_refuted`, `dtls_ssrc_exact_refuted`: s[0] | s[1] as name; strtoul takes signs, blanks and numbers that do not fit. Also: F8 profiles have no policy
  function (NULL call) but are not offered; RTCP that is not multiplexed is outside the gateway, since the chains of the RTCP streams get no processors.
* extractaudio: `eaud_no_sync_extracts_refuted`: with -n there is no recording the program can extract: at the end of a stream the node freed in extractaudio.c:500 is read in line 501.
  `eaud_gsm_payload_refuted`: a GSM payload that is not whole frames of 33 bytes is read behind its end and ibytes wraps (decoder.c:231-241). `eaud_g729_payload_refuted`: 15 bytes abort
  with BCG729. `eaud_long_payload_refuted`: the rest of a payload over 4096 bytes is lost. `eaud_timestamp_restart_refuted`: a negative double is converted to unsigned (decoder.c:99).
  `eaud_other_g729_refuted`: silence of 2160 samples or more goes over the end of obuf (obuf += 160 for 80 samples, decoder.c:279-284). `eaud_mulaw_silence_refuted`: the two zeros of
  mu-law are played as 2 and -2. `eaud_written_count_refuted`: in mono half of the samples written are reported. `eaud_only_extracted_removed_refuted`: -d also removes a recording that
  could not be read, and recordings of which nothing was written.
* acct_csv: `csv_big_file_refuted`: the offset is put into an int (rtpp_acct_csv.c:333, 346); from 2 GiB on it is negative, the row is lost and the lock is never released, so that other
  proxies wait for ever. `csv_any_call_id_refuted`: a comma in the Call-ID shifts the columns. `csv_truncation_refuted`: after truncation in place (copytruncate) there is no header.
  `csv_header_retried_refuted`: neither is there after a header that could not be written. `csv_descriptor_owned_refuted`: after a failed lock or fstat the closed number stays in fd and is
  closed again, whoever has it then. `csv_recovers_refuted`: when opening failed once and the old file is put back, no row is written any more, as stt still names that file and fd is -1.
  `csv_short_write_refuted`: the result of write() is ignored, so that the next row continues the line.
* modules: `mif_failed_load_refuted`: when a module cannot be loaded or its configuration section does not parse, parse_modules drops
  the only reference to the module object and then calls its kaput method (rtpp_cfile.c:229-233), i.e. uses freed memory; had it been alive,
  kaput would destroy the queue that load has not made or has destroyed already (rtpp_module_if.c:330-341, 381).
* extractaudio keys: `ecry_every_ssrc_refuted`: the SRTP context is made for the SSRC of the first packet only (ssrc_specific,
  eaud_crypto.c:186-189), so after a change of SSRC, or when the first UDP packet of the capture is not of the stream, all else fails to
  decrypt and is skipped. `ecry_adhoc_key_refuted`: load_adhoc takes the key and does not use it, so an encrypted recording in the format of
  the proxy is decoded as if the ciphertext were audio, without a warning (rtpp_loader.c:161-200).
* makeann: `mann_short_loop_refuted`: with -L and a recording of less than 160 samples the input is rewound once for a frame only (makeann.c:202-205), so
  frames come short: PCMU and PCMA are right, GSM, G.722 and G.729 get silence in between and a longer announcement. `mann_read_error_refuted`: a read error
  is taken for the end of the recording, exit status 0. `mann_close_refuted`: fclose() is not checked (makeann.c:268), so a full disk can leave a part of a file
  with exit status 0. `mann_vad_refuted`: with -v G.729 frames shorter than 10 bytes leave old bytes of the buffer in the file (makeann.c:231-237).
  `mann_recode_refuted`: the mu-law byte 127 decodes to -2 and that is encoded as 126.
* control sockets: `ctl_port_left_out_refuted`: the port table is to leave out the control port (rtpp_port_table.c:129) but is made with cfsp->port_ctl
  (main.c:1020-1021), which is 0 from main.c:356 on; only the port_ctl of the socket is set (rtpp_controlfd.c:151, 193), and later. `ctl_ipv6_port_refuted`: udp6:::1 is the
  host ":" with the port 1. `ctl_twice_refuted`: of two sockets with the same path the first can no longer be reached. `ctl_file_kept_refuted`: whatever file is at
  the path is removed first (rtpp_controlfd.c:96). `ctl_failed_start_refuted`: sockets opened before a failure stay, as atexit() comes later (main.c:1028, 1054).
* receiving: `rcvf_time_refuted`: the loop over control messages ends with the address (rtpp_network_io.c:92), so a time that comes after it is not used and the packet gets
  the time of the poll; Linux gives the time first, so this is latent there. `rcvf_whole_refuted`: MSG_TRUNC is not looked at, so a datagram beyond 8192 bytes is relayed cut.
  `rcvf_drain_all_refuted`: rtpp_socket_drain() takes any error, as ECONNREFUSED or EINTR, for an empty socket (rtpp_socket.c:405-407).
* logging: `sysl_late_refuted`: a thread that got its item before the process ends puts it behind the item that ends the log, and the line is lost
  (rtpp_syslog_async.c:219-223). `sysl_text_error_refuted`: a negative result of vsnprintf() is added to the pointer (rtpp_syslog_async.c:267-274). syslog_dropped_items is
  never read, so dropped lines leave no trace.
* logging: `tick_errno_refuted`: _rtpp_log_ewrite_va reads errno after the lock and the first fprintf() (rtpp_log_stand.c:334-338), where usleep() may have set it to EINTR.
* allocation: `mall_wrap_refuted`: the sum of the sizes is not checked (rtpp_mallocs.c:96, 130), so that a size near 2^64 would get too few bytes; no caller passes one.

Noted, not proved:

* `rtpp_session.c:212` and `commands/rpcpv1_ul.c:726-728` ignore a failure to record the socket in the
  poll log: a port is answered that nobody listens on; `rpcpv1_ul.c:741` leaks a descriptor.
* `rpcpv1_ul.c:957-962` replaces the resizer of a running stream without a lock.
* `rtp_resizer.c:172, 303`: conversion of a double above 2^32 to `uint32_t` is undefined after some six
  days of uptime. The marker bit moves when a packet is split; a change of SSRC does not flush.
* `rtpp_record.c:235-247`: file paths are built without bounds; the `ip_id` counter is shared unlocked.
* `rtpp_command_async.c:426-429`: a hang-up closes a connection before its unread data is served;
  `POLLERR` makes the thread spin.
* `rtpp_stream.c:1175, 1198`: two accesses to the state of the peer's address without its lock.
* `dtime2mtimespec` without carry is also used by `rtpp_proc_servers.c:192` and `rtpp_packetport.c:579`.
* The perfect hash of the counters is built by trial; duplicate names would loop for ever.

## Seeded bugs

`tools/mutate.py` edits one definition of the model in a scratch copy, rebuilds, and lists which theorems
fail. Results are in `seeded/LOG.jsonl`; where nothing failed a theorem was added or tightened and the
log says which.

## Trusted base

* The Coq 8.16.1 kernel, including `vm_compute` (used in examples and witnesses).
* The reading of the C code recorded in the comments of the `*Model.v` files.
* `Print Assumptions` follows every theorem in the `*Thm.v` files and prints "Closed under the global
  context" for each of them: no axiom, neither of this development nor of the standard library, is used.
