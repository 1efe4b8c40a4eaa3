#!/usr/bin/env python3
"""Writes properties.jsonl from the list below."""
import json, os
P = []
def p(title, statement, quantifier, why, anchors):
    P.append(dict(id="C%02d" % (len(P) + 1), title=title, statement=statement,
                  quantifier=quantifier, why_tests_cant=why, anchors=anchors))

p("RTP header parsing is memory safe and agrees with RFC 3550",
  "Parsing a received datagram of any length up to the receive buffer never reads outside the bytes received; it succeeds exactly when the bytes form a version-2 RTP packet whose CSRC list, header extension and padding fit, and then the payload range it reports lies inside the datagram and starts right after header, CSRCs and extension, and the sequence number, timestamp, SSRC and payload type it reports are the big-endian header fields.",
  "every byte string of every length (0..8192)",
  "The input space is all byte strings; a length/offset combination that overreads need not be in any sample.",
  ["src/rtp.c: rtp_packet_parse_raw", "src/rtp.h: rtp_hdr, RTP_HDR_LEN", "src/rtp_packet.c: rtp_packet_parse"])
p("Datagram classes are disjoint",
  "No datagram is classified both as RTCP and as STUN or DTLS, or both as STUN and DTLS, and every datagram the demultiplexer takes for RTCP is refused by the RTP parser.",
  "every byte string of every length",
  "Disjointness is a statement about all byte strings.",
  ["src/rtp_packet.c: rtpp_is_rtcp_tst, rtpp_is_stun_tst, rtpp_is_dtls_tst", "src/rtp.c: rtp_packet_parse_raw"])
p("Re-packetization keeps the media intact and in order",
  "With a requested packet time (z modifier), the payload bytes of the packets that leave the resizer and of those it still holds are exactly the payload bytes of the unpadded packets it accepted, each byte once, each codec frame whole and with its original playing time; for one source they leave in timestamp order; output sequence numbers are consecutive modulo 2^16; only packets earlier than the end of what was already sent are refused; a packet is sent as soon as the packet time is gathered; a G.711 packet that lasts longer is cut at the packet time, rounded up to 10 ms; and no packet buffer is overrun.",
  "every sequence of packets, reads and packet time changes, every clock value, allocation failures",
  "Depends on the whole history of reordering, duplicates and wrap-around.",
  ["src/rtp_resizer.c: rtp_resizer_enqueue, rtp_resizer_get", "src/rtp.c: rtp_packet_chunk_find", "src/rtp.h: ts_less"])
p("Media ports: each candidate once, never the control port",
  "One port allocation offers each even port of the configured range at most once, offers no port outside the range and never a pair containing the control port, starts after the last port used, and remembers the one that was taken.",
  "every port range, every control port, every allocation history",
  "Random permutation and history dependent start index.",
  ["src/rtpp_port_table.c"])
p("Ring buffer remembers exactly the last N elements",
  "The ring buffer reports the position of an element exactly when it is among the most recent N appended since the last flush; it never touches memory outside its slots.",
  "every capacity, every element size, every history of append/flush/locate",
  "History and wrap-around dependent.",
  ["src/rtpp_ringbuf.c"])
p("TTL counter never goes below zero and expires exactly on time",
  "After the TTL is set or reset to n, the n-th decrement without a reset in between is the first that finds it expired; it never becomes negative.",
  "every history of reset/reset_with/decr/get_remaining",
  "All interleavings of traffic and ticks.",
  ["src/rtpp_ttl.c"])
p("Session timeout: deleted exactly when idle, notified once",
  "A session is removed by the idle sweep in the first sweep that finds its RTP pipe TTL at zero and not before; it is counted as timed out once and its timeout notification is sent at most once; sessions with live traffic are never removed by the sweep.",
  "every set of sessions, every history of packets and sweeps",
  "Depends on the interleaving of traffic and ticks over unbounded time.",
  ["src/rtpp_proc_ttl.c", "src/rtpp_pipe.c", "src/rtpp_ttl.c"])
p("Unique ids",
  "No two calls of the id generator return the same id, whatever threads make them and however they interleave, and no id is zero, until 2^64 ids were handed out.",
  "every number of threads, every interleaving",
  "All schedules.",
  ["src/rtpp_genuid.c"])
p("Packet accounting is conserved",
  "Per-stream counters read back equal the number of relayed, dropped and ignored packets registered, and the number of drops attributed to code locations never exceeds the number of drops, under every interleaving of the registering threads.",
  "every interleaving of counter updates",
  "Lock-free compare-and-swap table: all schedules.",
  ["src/rtpp_pcount.c", "src/rtpp_pcnt_strm.c"])
p("Growable string buffer never overflows and is always terminated",
  "Writes to the string buffer never go past its allocation, the content is the concatenation of the successful writes, it is NUL terminated, and a write that does not fit leaves it unchanged and reports overflow.",
  "every history of writes and resets, every size",
  "All lengths around the boundary.",
  ["src/rtpp_sbuf.c"])
p("Hash table behaves as a multimap with insertion order per key",
  "For every history, find/foreach_key/remove/remove_by_key/purge/length return what a list of (key,value) pairs in insertion order would return, for string and integer keys, independent of the hash function, across the automatic resizes; with the no-duplicates flag a second insert of a key is refused.",
  "every history of operations, every hash function/seed",
  "All collision patterns and resize points.",
  ["src/rtpp_hash_table.c"])
p("Weak registry callbacks fire exactly on the empty/non-empty transitions",
  "The registry of sessions/streams calls on_first exactly when it becomes non-empty and on_last exactly when it becomes empty, so the two alternate; lookups by id return the registered object until it is unregistered.",
  "every history of reg/unreg/move/foreach/purge",
  "History dependent.",
  ["src/rtpp_weakref.c"])
p("Reference counted objects are destroyed exactly once, in LIFO order",
  "Destructors attached to an object run exactly once, in reverse order of attachment, at the moment the last reference is dropped and not before, under every interleaving of incref/decref by holders of references.",
  "every history/interleaving by threads that own references",
  "All schedules.",
  ["src/rtpp_refcnt.c"])
p("Weak references never hand out a dead object",
  "Taking a reference through a weak reference yields either nothing or an object that is still alive and now has one more reference.",
  "every interleaving of getref calls with the destruction of the target",
  "Race windows of a few instructions.",
  ["src/rtpp_wref.c", "src/rtpp_refcnt.c: tryincref"])
p("Reader/writer lock excludes writers",
  "While a writer (or a reader upgraded to writer) holds the lock nobody else does; readers share; an upgrade succeeds only for a sole reader.",
  "every number of threads, every interleaving",
  "All schedules.",
  ["src/rtpp_rw_lock.c"])
p("Work queue is FIFO and loses nothing",
  "Items come out in the order they were put in, each exactly once, whatever mix of single gets, batch gets and predicate removals is used, across the circular buffer/linked list boundary; when the configured maximum is reached a put is refused and changes nothing; no consumer sleeps while items wait and nobody has been woken for them.",
  "every history of put/get/get_items/get_first_matching, every buffer size",
  "All wrap-around and spill positions.",
  ["src/rtpp_queue.c", "src/rtpp_queue.h"])
p("Timed tasks never fire early and one-shot tasks fire at most once",
  "A scheduled task runs only when its due time has been reached; a one-shot task runs exactly once or is cancelled exactly once, never both; after a successful cancel it never runs.",
  "every history of schedule/cancel/process with every clock reading",
  "Unbounded histories and clock readings.",
  ["src/rtpp_timed.c"])
p("Packet processors run in order and every packet is disposed of once",
  "For a received packet the registered processors run in nondecreasing order position, each at most once, until one takes or drops the packet; every packet is released exactly once: by the chain if nobody took it, otherwise by the taker.",
  "every set of registered processors, every packet, every history of register/unregister",
  "All handler sets and outcomes.",
  ["src/advanced/pproc_manager.c"])
p("Statistics names resolve to their own counter and nothing else",
  "Looking a counter up by name yields the counter declared under exactly that name; unknown names yield -1; the value returned is the sum of all updates made under that name.",
  "every string, every random seed, every update history",
  "All strings and all random permutations.",
  ["src/rtpp_stats.c", "src/rtpp_pearson_perfect.c", "src/rtpp_pearson.c"])
p("Word-at-a-time tokenizer equals the byte-wise tokenizer",
  "Splitting a command buffer yields exactly the maximal runs of non-separator bytes, in order and terminated, for every length and alignment.",
  "every byte string",
  "Bit tricks must hold for every 8-byte word.",
  ["src/rtpp_util.c: rtpp_strsplit"])
p("Command splitting: cookie, arguments and sub-commands",
  "A control message is split into cookie, arguments and &&-separated sub-commands exactly by the white-space token grammar; too many arguments or sub-commands, or an empty one, is answered by an error and never writes outside the argument arrays.",
  "every control message",
  "All token counts/positions of &&.",
  ["src/rtpp_command.c: rtpp_command_split"])
p("Argument counts are enforced before a command runs",
  "A command handler only runs with an argument count its command allows, so that every argument index it reads exists; any other count is answered with a syntax error.",
  "every command letter and argument list",
  "All command/argument count combinations including modifiers.",
  ["src/rtpp_command_parse.c"])
p("Retransmitted commands are executed at most once",
  "While a reply is cached a repeated datagram with the same cookie gets the byte-identical reply and is not executed again; replies are kept at least the guaranteed time.",
  "every history of datagrams and cleanup ticks",
  "All interleavings with the clean-up timer.",
  ["src/rtpp_command_rcache.c", "src/rtpp_command.c: rtpp_command_guard_retrans"])
p("Replies never overflow the reply buffer",
  "Building a reply never writes past the reply buffer and a reply that would not fit is reported as an error rather than crashing the server.",
  "every command, cookie and value",
  "All lengths around 1024.",
  ["src/rtpp_command_reply.c", "src/commands/rpcpv1_query.c", "src/commands/rpcpv1_stats.c"])
p("URL quoting round-trips",
  "Unquoting a quoted string gives back the original string; unquoting never reads or writes outside its buffers.",
  "every byte string",
  "All byte strings incl. percent at the end.",
  ["src/rtpp_util.c: url_quote, url_unquote2"])
p("Listener pairs are atomic",
  "Creating a media listener either returns two sockets bound to adjacent ports p and p+1 with p from the range, or fails and leaves no socket open.",
  "every outcome of every bind/socket call",
  "All failure points.",
  ["src/rtpp_command.c: rtpp_create_listener, create_twinlistener"])
p("Bind addresses are shared, unique and stable",
  "Asking for the same local address again returns the same object (unless that address was configured again, with a label, in between); different addresses return different objects; a label once associated keeps referring to its address.",
  "every history of lookups",
  "History dependent.",
  ["src/rtpp_bindaddrs.c"])
p("Tag matching and stream lookup",
  "A stored tag matches a requested tag exactly when equal, or when the stored tag is the requested tag followed by ;suffix; stream lookup returns the first session of the call in insertion order that matches, with the caller/callee side as requested.",
  "every pair of tags, every session table",
  "All prefix/suffix combinations.",
  ["src/rtpp_session.c: compare_session_tags, rtpp_session_ematch, find_stream"])
p("Delete removes exactly the addressed sessions",
  "A delete command removes only sessions of the given call-id whose tag matches; with the weak flag it removes a session only once neither side holds it; all media streams of the dialog are removed, other calls are untouched.",
  "every session table and command history",
  "History of weak/strong flags and multi-stream dialogs.",
  ["src/commands/rpcpv1_delete.c"])
p("Update/lookup keep the ports of an existing session",
  "Repeating an update or lookup for an existing session returns the same ports unless a new port is requested; a lookup for an unknown session creates nothing.",
  "every history of U/L/D commands",
  "History dependent.",
  ["src/commands/rpcpv1_ul.c"])
p("Query replies are well formed",
  "A query reply lists exactly the requested counters in the requested order, or the documented default five fields.",
  "every query and session state",
  "All argument lists.",
  ["src/commands/rpcpv1_query.c"])
p("The poll table mirrors the live sockets",
  "After every synchronisation the set of polled sockets equals the set of sockets of live streams, whatever order sockets were added, replaced and removed in between; no internal assertion fails.",
  "every history of append/update/remove/sync",
  "Log replay over unbounded histories.",
  ["src/rtpp_sessinfo.c"])
p("Address latching resists off-path injection",
  "Once a stream is latched, a packet from another address is discarded and the remote address is unchanged unless the packet continues the latched SSRC within the sequence window, or arrives within the update window after a signalled update.",
  "every history of packets and updates",
  "Adversarial packet sequences.",
  ["src/rtpp_stream.c"])
p("Loss, reordering and duplicate accounting is exact",
  "For a stream whose reordering stays within the tolerated window, packets sent, received, lost and duplicate counts reported equal the true counts, across any number of sequence number wraps.",
  "every packet arrival order within the window, any length",
  "Unbounded wraps and all permutations in the window.",
  ["src/rtp_analyze.c", "src/rtpp_analyzer.c"])
p("Internet checksums in recordings verify",
  "The IP header and UDP checksums written into a packet capture verify by the standard one's complement test for every header and payload.",
  "every header and payload of even and odd length",
  "All byte strings.",
  ["src/rtpp_network.c: rtpp_in_cksum", "src/rtpp_ip_chksum.h", "src/rtpp_record.c"])
p("Timeout notification target lookup",
  "A notification target named in a command is found exactly when it was configured (or matches a configured wildcard), and a given name always yields the same target.",
  "every configuration and every target string",
  "All strings/configurations.",
  ["src/rtpp_tnotify_set.c"])
p("Control stream framing",
  "On a stream control connection the commands executed are exactly the newline separated lines of the byte stream, in order, independent of how the bytes are split into reads; an over-long line closes the connection and never overflows the buffer.",
  "every byte stream and every segmentation into reads",
  "All segmentations.",
  ["src/rtpp_command_stream.c", "src/rtpp_command_async.c: process_commands_stream"])
p("Recording files contain every packet once and in order",
  "Apart from I/O errors, the bytes in the recording file after close are the file header followed by one record per recorded packet, in order; the write buffer never overflows.",
  "every sequence of packets and every packet size",
  "All fill levels of the 4096 byte buffer.",
  ["src/rtpp_record.c"])
p("Record/copy/stop-record histories never hit an assertion",
  "Whatever sequence of R, C and N commands (with whatever failures opening targets) is issued, RTP and RTCP recorders of a stream are present together, and no assertion in the recording commands fails.",
  "every history of R/C/N commands and open failures",
  "History dependent.",
  ["src/commands/rpcpv1_copy.c", "src/commands/rpcpv1_record.c", "src/commands/rpcpv1_norecord.c"])
p("Announcement playback: pacing, numbering and loops",
  "A player emits packets with consecutive sequence numbers and timestamps advancing by exactly the media time, never ahead of its start time plus media time sent, plays the file the requested number of times, and never overruns the packet buffer.",
  "every codec, packet time, file length, loop count and polling schedule",
  "All schedules.",
  ["src/rtpp_server.c"])
p("Wake-ups are never lost",
  "When the wake-up thread goes to sleep without a deadline, every nudge requested so far has been delivered; a pending nudge always has a delivery or a deadline scheduled.",
  "every interleaving of nudges and the wake-up thread",
  "All schedules.",
  ["src/rtpp_proc_wakeup.c"])
p("Time conversions give valid system times",
  "Converting internal time to a system time structure yields a normalised value (sub-second part below one second).",
  "every nonnegative time value",
  "Rounding boundary values.",
  ["src/rtpp_time.c"])
p("Every ready control connection is served once per round",
  "In one poll round each ready control connection is served exactly once, closed connections are removed and closed exactly once, the others keep their state.",
  "every set of connections and outcomes",
  "Index manipulation while iterating.",
  ["src/rtpp_command_async.c: rtpp_cmd_queue_run"])
p("Sender thread: copies and retries are bounded and in order",
  "Each queued packet is handed to the network at most the requested number of copies, with at most three retries after transient errors, and packets are sent in queue order.",
  "every outcome of every send",
  "All error patterns.",
  ["src/rtpp_netio_async.c"])
p("Stream forking (C sub-command) terminates",
  "Processing a packet terminates whatever copy relations between sessions were configured.",
  "every copy graph between sessions",
  "All graphs, including cycles.",
  ["src/commands/rpcpv1_ul_subc_copy.c"])
p("Numeric arguments are parsed exactly",
  "A numeric argument is accepted exactly when it is a decimal integer representable in the target type, and the value is that integer.",
  "every byte string",
  "All digit strings, incl. overflow.",
  ["src/rtpp_util.c: atoi_safe, atoi_saferange, atoi_safe_sep"])
p("Protocol feature query",
  "The VF command answers 1 exactly for the published capability dates (the notification one only when enabled) and 0 for anything else.",
  "every argument string",
  "All strings.",
  ["src/commands/rpcpv1_ver.c"])
p("Load filter peak tracking",
  "The smoothing filter with peak detection reports a minimum not above and a maximum not below every value it has output.",
  "every input sequence",
  "Unbounded history.",
  ["src/rtpp_math.c"])
p("Announcements start, stop and end cleanly",
  "A side of a session has at most one announcement at a time. After a stop command is answered no packet of the announcement leaves, after a play command is answered only packets of the new one do. The media of the other side is dropped exactly while there is an announcement. One that was ordered before the side can be sent to starts when it can. Commands and the player thread neither abort the process nor lock each other out.",
  "every interleaving of play and stop commands, ends of announcements, changes of the address or socket, and failures",
  "The failing orders are a few instructions wide; all schedules of three kinds of threads and two locks must be covered.",
  ["src/rtpp_stream.c: rtpp_stream_handle_play, rtpp_stream_handle_noplay, rtpp_stream_finish_playback", "src/rtpp_proc_servers.c", "src/rtpp_hash_table.c: hash_table_transfer"])
p("Every received packet has exactly one fate, and the counters say which",
  "Every datagram that arrives at a port of a session is relayed unchanged to the known address of the other party of the same session, or dropped, ignored, taken by another function, thrown away because the session is not complete, or lost when the session ends; exactly one of these, in order of arrival. Nothing is sent to an unknown address. The packet counters of session and proxy, the numbers reported at the end of a session, its classification as without media or one-way, and the restarts of its timeout are those of the packets. A stream that is flooded does not keep the others waiting.",
  "every history of arrivals, threads' turns, commands and session ends over any number of sessions, in every interleaving",
  "Unbounded histories and interleavings; the counters are kept in five places.",
  ["src/rtpp_proc.c: rxmit_packets, process_rtp_only", "src/rtpp_proc_async.c: relay_packet", "src/rtpp_stream.c: rtpp_stream_rx, rtpp_stream_send_pkt, rtpp_stream_issendable", "src/rtpp_pipe.c: rtpp_pipe_get_stats, rtpp_pipe_upd_cntrs", "src/rtpp_session.c: rtpp_session_dtor"])
p("Modifiers of the U and L commands are parsed exactly",
  "Whatever the bytes of the modifiers of a U or L command are, the parser reads nothing beyond them, ends, and either rejects the command with the error of the first modifier that cannot be accepted, or accepts it; it accepts exactly the sequences of the documented modifiers, and the resulting options (asymmetric, weak, new port, address family, packet time, codecs, directions, local address, remote RTP and RTCP addresses) are those the modifiers say, the last one of a kind counting.",
  "every byte string as modifiers, every remote address, every configuration, failures of allocation and of the resolver",
  "All byte strings; over-reads depend on what follows in memory.",
  ["src/commands/rpcpv1_ul.c: rtpp_command_ul_opts_parse_inner", "src/rtpp_network.c: extractaddr, extractlabel"])
p("RTCP packets become exact JSON reports",
  "Whatever bytes arrive as RTCP packets, making reports of them for the capture server touches nothing outside the packet and the text buffer, aborts nowhere and ends; a report is sent exactly for compound RTCP packets of version 2; its text consists of one JSON text per sender or receiver report in the packet, in order, with the values of the packet; a bad packet or lack of memory never makes a later or a partial report wrong.",
  "every history of packets with arbitrary bytes, every result of every reallocation, every initial content of the buffer",
  "All byte strings and all lengths and counts in them; all points where memory runs out.",
  ["modules/acct_rtcp_hep/rtcp2json.c: rtcp2json", "modules/acct_rtcp_hep/rtcp.h: RTCP_GET_LOST", "modules/acct_rtcp_hep/rtpp_acct_rtcp_hep.c: rtpp_acct_rtcp_hep_do"])
p("Notifications are delivered in order, over well used sockets",
  "Every notification that was accepted is dealt with exactly once, in the order of acceptance, and delivery ends; a target is sent exactly the lines of the notifications reported as delivered to it; a notification is tried at most four times and given up only after four failed sends or when no connection can be made; descriptors are used only while open and for the target they are connected to, inherited ones (targets fd:N) are never closed, and no more stay open than there are targets; a failing peer never ends the process.",
  "every interleaving of scheduling, destruction and delivery steps, every answer of socket, bind, connect and send, every set of targets",
  "All schedules of the threads and all sequences of failures of the system calls.",
  ["src/rtpp_notify.c: rtpp_notify_schedule, rtpp_notify_queue_run, do_notification, reconnect_handler", "src/rtpp_tnotify_set.c: rtpp_tnotify_set_append, rtpp_tnotify_set_get_tp4wp"])
p("DTMF events are reported once each, as asked",
  "The DTMF subcommand is accepted exactly when the session has a target for notifications and the arguments are a correctly quoted tag, optionally a payload type of 0..127 (default 101) and optionally hiding; packets of other payload types, and of streams without it, pass untouched, those of the type are hidden exactly when that was asked last; the notifications of a stream are, in order, one for each event whose end packet follows its first packet, with tag, symbol, volume, longest duration and side as asked; no memory behind a buffer is read.",
  "every sequence of commands, received packets of any content and steps of the module's thread, for any number of streams",
  "All interleavings of events, repetitions, losses and reorderings of packets, and all contents of the packets.",
  ["modules/catch_dtmf/rtpp_catch_dtmf.c: rtpp_catch_dtmf_handle_command, rtp_packet_is_dtmf, rtpp_catch_dtmf_enqueue, rtpp_catch_dtmf_worker"])
p("Recordings can be read back",
  "extractaudio counts exactly the datagrams of every file in either recording format; loading such a file adds, for every source, exactly its packets with audio, each once and in the order of sending, to a channel of that source alone, returns the number added and leaves other sources as they were; what the recorder wrote is such a file, also when the disk filled up; a file cut within a record is refused; no file makes it read outside the file or run forever.",
  "every file (well-formed or not), every recorded history of packets and results of writes, every set of channels already loaded",
  "All contents of files and all orders of packets; files are input from outside.",
  ["extractaudio/rtpp_loader.c: rtpp_load, load_adhoc, load_pcap", "extractaudio/eaud_pcap.c: eaud_pcap_dissect", "extractaudio/eaud_adhoc.c: eaud_adhoc_dissect", "extractaudio/rtpp_scan_pcap.c", "extractaudio/rtpp_scan_adhoc.c", "extractaudio/extractaudio.c: load_session, scan_session, session_lookup, channel_insert"])
p("Addresses to listen on: the options mean what is written, and the answer to an update has the address they and the modifiers ask for",
  "For every sequence of -l, -6 and -A options and every name service: the daemon starts exactly when there are at most 16 addresses, every -A is well formed, the options describe either one address and further labelled ones with distinct labels, or a bridge (addr1/addr2 in the first IPv4 or first IPv6 option, the internal address coming from the first option of the other family when addr1 is empty) and labelled addresses, and every host is known; otherwise it stops with a message, and it never aborts. The addresses, labels and advertised addresses it then has are those written, in order. The answer to an update that creates a session and gives no address itself has the port and, unless the address is the null one, the advertised address if there is one or else the real one, of the entry with the last label, or else of the external interface if the second direction is external and the internal one otherwise, or else of the default entry or the last entry of the family asked for; and the update is answered exactly when its modifiers are acceptable and there is such an entry.",
  "all sequences of -l, -6 and -A options with any text, all name services, all strings of modifiers without an address in them, all remote addresses, all ports",
  "Each option changes the meaning of others (the position of the first one of each family, a label, a slash, -A) and tests start the daemon with a handful of command lines.",
  ["src/main.c:498-524", "src/rtpp_bindargs.c: bindarg_parse, ba_firstidx, init_bindaddrs", "src/rtpp_bindaddrs.c: host2bindaddr", "src/rtpp_network.c: is_wildcard, is_numhost, ishostnull", "src/commands/rpcpv1_ul.c:141-146, 782-784", "src/rtpp_command_reply.c:181-202"])
p("The lock-free queue between threads is a queue, whatever the schedule",
  "For every power of two as capacity, every number of consumers, every sequence of pushes (one, many, many with a callback, many by key) by one producer and of pops (one or up to n) by the consumers, and every interleaving of their accesses to shared memory, including compare-and-exchanges that fail without a reason: the calls behave as if each was done at one moment between its start and its end on a bounded first-in first-out queue. The items taken out are those put in, in order, none lost, none twice, and never more than the capacity inside; a pop that returns nothing saw an empty queue (or was asked for none), a pop of one returns one, a pop of n at most n and at least one; a push returns the number of items that went in, which is all unless this fills the room seen. The assertion that readers are not ahead of the writer does not fail; no access is outside of the array; no call waits for another thread.",
  "all capacities, all calls of the producer and of any number of consumers, all schedules of single accesses, all spurious failures",
  "The failures of such a queue are interleavings of a handful of accesses that a test on a given machine may never produce.",
  ["external/RTQueue/src/SPMCQueue.c: create_queue, try_push, try_push_many, try_push_many_pre, try_push_many_kv, try_pop, try_pop_many", "src/rtpp_packetport.c (user of the queue)"])
p("The packet port of the library passes packets in order, to the right stream, and says the truth about a flush",
  "For every sequence and interleaving of the pushes, flushes and pops of the application, of what the engine sends, registers and unregisters, of the steps of the thread of the port and of failed allocations: packets accepted from the application leave the queue in the order in which they came in, each once: handed to the stream registered for their port at that moment (to none if there is none), dropped for a newer one, or released at the end; packets sent to the application are delivered in order, each once or dropped or released; the queues keep their limits. After a successful flush every packet accepted before it is dealt with once the thread of the port has nothing more to do, and the thread comes to rest. A push queues its packet. A packet to the application is dropped only for a newer one. The destructor returns, and then nothing is left. The port numbers given out are even, not zero and different.",
  "all capacities, all calls of the application and of the engine, all schedules of three threads, all failures of memory, with and without delayed stores, all sequences of fewer than 2^31 allocations of ports",
  "Whether a packet can be missed between a flush and the thread that serves it depends on the interleaving of single steps of three threads.",
  ["src/rtpp_packetport.c: rtpp_packetport_push, rtpp_packetport_try_push, rtpp_packetport_try_push_many, rtpp_packetport_flush, rtpp_packetport_try_pop, rtpp_packetport_try_pop_many, rtpp_packetport_dtor_obj, rtpp_packetport_run_auto, rtpp_packetport_run_explicit, rtpp_packetport_proc_wi_batch, rtpp_packetport_drain_out, rtpp_packetport_nport_alloc", "src/librtpproxy.h"])
p("Commands joined by && do what the single commands do, in order, up to the first that fails",
  "For every history of U, L and Q commands with L, D, S and other sub-commands, of D and X commands, time-outs, seconds and packets: every command comes to an end and the sessions it leaves are those that some history of single commands leaves. Sub-commands are run in order up to the first that fails, none if the command itself fails. A lookup after an update is the lookup with the same tags; a delete after a command is the delete of the call and tag of its session. The time to live of a stream is the one set last with S, else the configured one for sessions in setup or for complete ones, and every update or lookup that is answered with a port restarts it. What S sets goes to the stream whose remote address was given just before (to the other one in the reverse form), and no other session is touched. The IPv4 sockets of a stream carry the type of service set last. A request that fails changes nothing; a port that is answered belongs to a session that exists; a session with one party is in setup; the delete sub-command is about its session only.",
  "all histories, all chains of any length, all tags and options, all failures of listeners and of setsockopt, shared and separate timers, all values of the configuration",
  "A chain works on a session that earlier parts of the same chain can change or remove; the result depends on the whole history of the session.",
  ["src/commands/rpcpv1_ul.c: rtpp_command_ul_handle_impl", "src/commands/rpcpv1_query.c: handle_query", "src/commands/rpcpv1_ul_subc.c: rtpp_subcommand_ul_handler", "src/commands/rpcpv1_delete.c: handle_delete_as_subc", "src/commands/rpcpv1_ul_subc_set.c: rtpp_subcommand_set_handler, strmp_settos"])
p("STUN messages: whatever arrives is read safely, what is written is read back, and only a message made with the password is accepted",
  "Any datagram given to the STUN reader is either refused or read to its end without touching a byte outside it, and so are the fingerprint and integrity checks with any password; the checks leave the packet as it was. The attributes of a message lie one after the other in the bytes its header counts. A message that is written is read back with the same method, class, transaction and attributes, plus the digests asked for, and passes both checks. A datagram is accepted with a password exactly if it carries the keyed digest of its covered bytes and the checksum; a datagram that covers the bytes of a known message is accepted only as that message, with nothing added, removed or changed. Replies to requests, with the address of the sender or an error, always fit the buffer and the other side reads what was meant. Only the type of a binding request is taken for one. Attributes are delimited by their lengths; class and method are read back for every method.",
  "all datagrams of any length and content, all attribute lists, methods, classes, transactions, passwords and digest functions",
  "The reader is given packets of strangers; positions depend on lengths inside the packet and there are unboundedly many of them, and tests only see packets of well-behaved peers.",
  ["external/libre/src/stun/hdr.c: stun_hdr_decode, stun_hdr_encode", "external/libre/src/stun/attr.c: stun_attr_decode, stun_attr_encode", "external/libre/src/stun/addr.c: stun_addr_decode, stun_addr_encode", "external/libre/src/stun/msg.c: stun_msg_decode, stun_msg_vencode, stun_msg_chk_mi, stun_msg_chk_fingerprint", "external/libre/src/stun/rep.c: stun_reply, stun_ereply", "external/libre/src/mbuf/mbuf.c", "libre/rtpp_re.c: mem_realloc"])
p("ICE: an agent answers who it should, sends media only where a nominated candidate is, and lets in nothing before that",
  "An agent answers exactly the binding requests with a right fingerprint, with what RFC 5245 asks for, in a reply the asker can check. Who does not know the password changes nothing. An agent is completed exactly if its thread got to a request that nominates a candidate it was told of; candidates are known exactly if a C command described them. Until then no packet gives the side an address and only STUN is handled at its RTP port; from then on the side sends to where the nominating request came from and lets in nothing from elsewhere. Commands touch one side; D and U leave nothing of the module behind; no command ends the program. Names and passwords have the letters and lengths asked for and stay; S answers with them and the candidate. A packet is released once; the RTCP port is guarded too; a side that gave up its agent latches normally; later nominations are followed; the reply to S is complete; user names and command names are taken as they are.",
  "all histories of commands, datagrams at the four ports, steps of the module thread, address updates and locks; all digest functions, address readers and random numbers",
  "Whether media is let in depends on the whole history of commands, packets and thread steps, and on datagrams anyone can send; tests follow one peer that behaves.",
  ["modules/ice_lite/rtpp_ice_lite.c: rtpp_ice_lite_handle_command, ice_lite_activate, ice_lite_start, rtpp_ice_lite_worker, rtpp_stun_enqueue, rtpp_rtcp_demux", "external/libre/src/ice/stunsrv.c: icem_stund_recv, handle_stun_lite", "external/libre/src/ice/cand.c, candpair.c, comp.c, util.c", "libre/rtpp_re_icesdp.c: rtpp_cand_decode", "src/advanced/pproc_manager.c: rtpp_pproc_mgr_register, rtpp_pproc_mgr_handleat, rtpp_pproc_mgr_unregister", "src/rtpp_stream.c: rtpp_stream_latch_setmode, rtpp_stream_latch"])
p("DTLS gateway: media passes only under keys of a handshake with the peer that was told, and nothing passes untouched",
  "On a side with a gateway every packet from it and every packet to it goes through the module and none is relayed as it is; without one nothing changes. Packets are taken in order, DTLS records go to the handshake and the rest to SRTP. Media goes on only if its connection completed a handshake, with the keys of that handshake in the right direction, and the certificate was that of the fingerprint known then; what was known is what an A or P command for the side told. A wrong certificate never opens a connection, the right peer does. A connection only goes forward. D and U leave nothing; commands touch one side; when commands are granted and what they answer is known exactly. Fingerprint texts are those of RFC 8122 and keys those of RFC 5764; two ends with the same keying understand each other. The program survives all packets that leave room for the tag. Also expected: no media before a fingerprint is known; a new fingerprint is enforced; a command that fails is harmless and can be sent again; the answer can be told after an early hello; memory is bounded; any packet that can be received can be sent; fingerprints are compared without regard to case; command names and ssrc are taken exactly.",
  "all histories of commands, packets, thread steps and timers, all answers of the TLS library, all SRTP libraries (with the laws of one only where said)",
  "What may pass depends on the whole history of commands, records and timers, and on datagrams anyone can send at any time; tests run one handshake that succeeds.",
  ["modules/dtls_gw/rtpp_dtls_gw.c: rtpp_dtls_gw_handle_command, rtpp_dtls_gw_setup_sender, rtpp_dtls_gw_taste_encrypted, rtpp_dtls_gw_taste_plain, rtpp_dtls_gw_enqueue, rtpp_dtls_gw_worker", "modules/dtls_gw/rtpp_dtls_conn.c: rtpp_dtls_conn_setmode, rtpp_dtls_conn_dtls_recv, rtpp_dtls_conn_rtp_send, rtpp_dtls_conn_srtp_recv, rtpp_dtls_conn_timeout, tls_srtp_keyinfo", "modules/dtls_gw/rtpp_dtls_util.c: rtpp_dtls_fp_gen", "src/rtp_packet.c: rtp_packet_is_dtls"])
p("extractaudio: every packet of a recording is heard once, at its place, and streams are mixed in time",
  "G.711 is expanded as the standard says. A stream of packets that came in time gives exactly the samples of its packets at their timestamps, with silence for what is missing. Every stream comes to an end, and the program fails only on packets of incomplete frames or of times before the first. The file has one frame for each sample from the first packet of all to the end of the last stream; frame k is made of the samples of the streams that sound then, each side blended in the order the streams began, as two channels or their mean. Without -d no recording is removed; a program that fails has changed no file; all names given are links to the file. Also expected: mu-law silence is silence; the count reported is the number of samples; -n works; any payload is decoded as far as it can be; a sender that starts its timestamps anew is followed; -d removes only what was extracted.",
  "all recordings of any number of streams with any packets, all codecs that give the right number of samples, all ways of compiling, mono and stereo",
  "What is heard at a moment depends on all timestamps, arrival times and payload sizes of all streams before it; tests compare the file of one recording.",
  ["extractaudio/decoder.c: decoder_new, decoder_get, decode_frame, generate_silence", "extractaudio/eaud_substreams.c: eaud_ss_find, eaud_ss_syncactive", "extractaudio/extractaudio.c: main, channel_insert, channel_remove", "src/g711.h: _u2sl, _A2sl"])
p("Accounting in CSV: whole rows under one header, one row for each session, whatever proxies share the file and however it is rotated",
  "A row has as many cells as the header and says under each name what the session, its two sides and its streams were, as long as the Call-ID, the tag and the node name hold no comma and no end of line; an SSRC is written so that it can be read back. The node name is what the host was called at a session not longer than the interval ago. With any number of proxies appending to one file, in any interleaving of their system calls, with renames, replacements and new files at any moment and with failing calls, every file is what was there, or one header, followed by whole rows. Every session of a proxy has one outcome, in order; when no call fails and files stay below 2 GiB every row is written once. Some proxy can always go on and each call is finished after nine system calls at most. A session that ends alone is written to the file that has the name then, made with a header if there is none. Also expected: any Call-ID is fine; files may grow beyond 2 GiB; a file may be truncated in place; a header that failed is written later; only descriptors of the module are closed; after a failure that is over rows are written again; a short write spoils nothing.",
  "all sessions and addresses; all numbers of proxies, all interleavings of their system calls with each other, with rotation and with failures; all files there before",
  "Which bytes end up where depends on the interleaving of lock, fstat and write of several processes with a rename by another; a test runs one schedule.",
  ["modules/acct_csv/rtpp_acct_csv.c: rtpp_acct_csv_open, rtpp_acct_csv_ctor, rtpp_acct_csv_do, rtpp_acct_csv_lockf, rtpp_acct_csv_unlockf, rtpp_acct_get_nid, format_ssrc, format_netaddr", "src/rtpp_network.c: addrport2char_r"])
p("Modules: every ended session is told once to each module that asked for it, in order, before the module is shut down, and its record is freed once",
  "Loaded modules have distinct (module, instance) numbers and a subcommand reaches the module it names. When a session ends, each module with session accounting is offered its record exactly once; an offer (or one of an RTCP packet) is lost only when memory runs out or when 128 items wait in the queue of that module. What is taken is handed over in order, each item once, after the module has been constructed and before its destructor. A record is freed once, when the session is gone and no queue holds it, and is not used after that. Shutdown begins only when every session some module is to hear of is gone, always ends, and leaves nothing taken that was not handed over; the destructor is run once, last, on each module that was constructed. A module that cannot be loaded is refused without use of freed memory.",
  "all sets of modules and all results of their functions; all interleavings of session ends, RTCP packets, the threads of the modules and the shutdown; all allocation failures",
  "Whether a record is lost, freed early or handed over after the destructor depends on the interleaving of session destructors, one thread for each module and the shutdown, with queues that fill.",
  ["src/rtpp_module_if.c: rtpp_mif_load, rtpp_mif_construct, rtpp_mif_start, rtpp_mif_do_acct, rtpp_mif_do_acct_rtcp, acct_rtcp_enqueue, rtpp_mif_run_acct, rtpp_mif_kaput", "src/rtpp_modman.c: rtpp_modman_insert, rtpp_modman_get_next_id, rtpp_modman_startall, rtpp_modman_do_acct, rtpp_modman_get_ul_subc_h, rtpp_modman_dtor", "src/rtpp_session.c: rtpp_session_ctor, rtpp_session_dtor", "src/rtpp_cfile.c: parse_modules"])
p("Keys given to extractaudio: exactly the base64 texts of 30 bytes with a known suite are accepted, and every encrypted packet is decrypted with them",
  "--alice-crypto and --bob-crypto accept an argument exactly when it is the name of a supported suite (in any case), a colon and the base64 text of 30 bytes; the key is those bytes, different keys have different texts, the key fits its array and the authentication tag is that of the suite. Every packet of the recording that decrypts with the key is loaded decrypted, whatever its SSRC and whatever the format of the recording; without a key packets are loaded as they are.",
  "all arguments; all sequences of packets with any SSRCs; all behaviours of the SRTP library on one stream",
  "The bits of all 64^40 key texts, and recordings with several SSRCs in any order, cannot be enumerated.",
  ["extractaudio/eaud_crypto.c: srtp_crypto_suite_lookup, eaud_crypto_getopt_parse, eaud_crypto_decrypt", "extractaudio/srtp_util.c: base64_block_to_octet_triple, base64_string_to_octet_string", "extractaudio/rtpp_loader.c: load_pcap, load_adhoc"])
p("Announcements: makeann encodes exactly the samples asked for, for every codec, and G.711 codes are those of the standard",
  "Every 16 bit sample gets the A-law and the mu-law code of the chord and step it lies in; decoding gives the sample back within half a step, keeps the order of samples, and encoding a decoded byte gives the same byte. makeann ends for every input; when it reports no error, each file on the disk is the encoding of the samples asked for (the recording, the first samples of it up to the limit, or with -L the recording over and over up to the limit) in frames of 160 samples, the last filled with silence.",
  "all samples and bytes; all recordings, limits, sets of codecs and encoders with frames of constant size; all failures of reads and writes",
  "Files of any length with any limit and any failure; the table of 24576 entries is only right if each entry is.",
  ["makeann/makeann.c: main", "src/g711.h: SL2ULAW, SL2ALAW, _sl2u, _sl2A, _u2sl, _A2sl"])
p("Control sockets: the argument of -s has one meaning, and only the paths given with it are made and removed",
  "Each argument of -s is read as one kind of control socket by its prefix, and as the path of a UNIX socket without one; the host and the port of an inet socket are what is before and after the last colon, and 22222 without a port. Whatever fails, opening touches no path but those of UNIX control sockets; when it succeeds each of them is a socket that the proxy reads, if no path is given twice. The end of the proxy removes these paths and no others.",
  "all arguments, lists of control sockets, file systems and failures of system calls",
  "Any text can be an argument, any set of files can be on the disk and any call can fail in any combination.",
  ["src/rtpp_controlfd.c: rtpp_ctrl_sock_parse, controlfd_init_ifsun, controlfd_init_udp, controlfd_init_tcp, rtpp_controlfd_init, rtpp_controlfd_cleanup", "src/main.c: init_config, main", "src/rtpp_port_table.c: rtpp_ptbl_get_port"])
p("A packet read from a socket has its own bytes, sender, addresses and time",
  "Each read takes the first datagram that waits and makes one packet of it: its bytes as far as the buffer goes, its size, its sender, the port of the socket, the address it was sent to (or that of the socket when the kernel gives none), the monotonic time of the poll, and the time of arrival the kernel gives (or the time of the poll when it gives none). No packet is made of an error. Draining a socket ends, discards what waits up to the first error and counts it.",
  "all datagrams, control messages in any number and order, queues, errors and arguments",
  "The control messages come in an order that the kernel chooses, and datagrams of any length and errors in any order.",
  ["src/rtpp_network_io.c: _recvfromto, recvfromto", "src/rtpp_socket.c: rtpp_socket_rtp_recv_simple, _rtpp_socket_rtp_recv, rtpp_socket_rtp_recv_ts, rtpp_socket_drain"])
p("Lines logged through the syslog thread are written once, in order and whole, or dropped because all places are taken",
  "For any number of threads that log, every line that is put in the queue is written once, with its own priority and text, in the order in which lines are put, and the thread writes all that waits when it runs. A line is dropped exactly when all items of the pool are in use. When the thread ends, all lines put before the end are written. The text is the prefix, the message and the suffix, cut to the buffer.",
  "all interleavings of the steps of any number of threads with the thread that writes; all lines, sizes of the pool and of the buffer",
  "The order depends on the schedule, and the linked lists are right only if no history of gets, puts and returns breaks them.",
  ["src/rtpp_syslog_async.c: syslog_queue_run, syslog_queue_init, syslog_queue_get_free_item, syslog_queue_put_item, syslog_async_atexit, vsyslog_async"])
p("Lines on the standard error stream are whole and in order, and levels choose them",
  "Whatever the order of the steps of up to 2^32 threads, the stream has whole lines in the order in which the threads came, and one that is being written; one thread writes at a time, and when one waits and none writes, one of those that wait gets in. The names of levels are read in any case, each stands for one level and is printed for it, and a level shows itself and all that are more severe.",
  "all interleavings of the steps of up to 2^32 threads from every value of the counters; all names and levels",
  "The order depends on the schedule, and the counters wrap after 2^32 lines.",
  ["src/rtpp_log_stand.c: _rtpp_log_lock, _rtpp_log_unlock, _rtpp_log_write_va, _rtpp_log_ewrite_va, strlvl, rtpp_log_str2lvl, check_level"])
p("Objects and their counters are laid out in memory without overlap",
  "For every size of object (up to 2^64 less the counter and its alignment), every place of the pointer in it and every answer of the allocator: the object and its reference counter are aligned, do not overlap, lie in the bytes that the allocator gave and fill them to the last; the pointer in the object leads to the counter, the counter starts as zero, the object too when that is asked for, no other byte changes, and nothing changes when there is no memory.",
  "all sizes, offsets, power of two alignments, contents of memory and allocators",
  "The padding is arithmetic over every size; tests see the sizes of the objects of one build.",
  ["src/rtpp_mallocs.c: rtpp_aligned_malloc, rtpp_zmalloc, rtpp_rzmalloc, rtpp_rmalloc"])
if __name__ == "__main__":
    out = os.path.join(os.path.dirname(__file__), "..", "properties.jsonl")
    with open(out, "w") as f:
        for x in P: f.write(json.dumps(x) + "\n")
    print(len(P))
