(** Model of the relaying of packets: src/rtpp_proc.c:67-185 (one thread for RTP, one for RTCP), src/rtpp_proc_async.c:268-299
    with the part of rtpp_stream_rx in src/rtpp_stream.c:1180-1249 that counts, src/rtpp_stream.c:219-241, 799-811 and 1070-1088,
    src/rtpp_pcnt_strm.c:108-132, src/rtpp_pipe.c:186-239 and src/rtpp_session.c:283-302, with any number of sessions. The
    learning of addresses is LatchModel's. A step is what a thread does between two points where it matters that others run;
    commands and the arrival of packets are steps of their own. Simplified: what the processors of a chain do besides those of
    the proxy itself is an argument of the step ([early]: of those in front of the analyser, [late]: of those between it and the
    relay; PprocModel has the chain itself); counters kept per thread and flushed later (rtpp_proc_async.c:105-127) are counted
    at once; the calling thread holds references on session and streams, so they outlive its turn. Not modelled: the resizer
    (RszModel), the wake-up pipe (WakeModel), the sockets a session had before it moved to other ports, the recording and copying
    of packets, and the packet ports of the library build. *)
From Verif Require Import Base AddrModel LatchModel.

(** A stream: the session, whether it is the RTCP one, and the side ([false]: stream[0], callee, [true]: stream[1], caller;
    rtpp_stream.h:48) *)
Record sid := mkSid { s_call : nat; s_rtcp : bool; s_side : bool }.
Definition sid_eqb (x y : sid) : bool :=
  Nat.eqb (s_call x) (s_call y) && Bool.eqb (s_rtcp x) (s_rtcp y) && Bool.eqb (s_side x) (s_side y).
(** rtpp_pipe.c:121-124: what get_sender of a stream gives *)
Definition sender_of (x : sid) : sid := mkSid (s_call x) (s_rtcp x) (negb (s_side x)).
(** stuid_rtcp of an RTP stream (rtpp_session.c:191) *)
Definition rtcp_of (x : sid) : sid := mkSid (s_call x) true (s_side x).

(** A datagram: what LatchModel looks at, and its contents *)
Record pkt := mkPkt { k_h : packet; k_data : list Z }.

(** A thread (of RTP or of RTCP): between events, in rxmit_packets of a stream (lines 82-90) with ndrain, with a packet received
    (line 99), with a packet for which relay_packet (rtpp_proc_async.c:283) found that there is where to send it *)
Inductive wpc := Idle | Rx (x : sid) (nd : Z) | Hold (x : sid) (nd : Z) (k : pkt) | Ready (x : sid) (nd : Z) (k : pkt).
(** enum pproc_action *)
Inductive act := NOP | TAKE | DROP.

Definition smap (A : Type) := sid -> A.
Definition sset {A} (f : smap A) (x : sid) (v : A) : smap A := fun y => if sid_eqb y x then v else f y.
Definition pmap := nat -> bool -> Z.
Definition padd (f : pmap) (x : sid) : pmap :=
  fun c b => if Nat.eqb c (s_call x) && Bool.eqb b (s_rtcp x) then u64 (f c b + 1) else f c b.

(** [str]: the addresses and latches; [skt]: fd != NULL; [snd_]: _is_sendable; [inq]: what the kernel holds for a socket;
    [plr]: a drop_packets processor is registered for what goes out of this stream (rtpp_stream.c:536); [npin], [first]:
    npkts_in and first_pkt_rcv.mono of pcnt_strm; [reld], [drop], [ignr]: pcount of a pipe; [g_..]: the statistics of the proxy;
    [live]: the session has not been freed; [cmpl]: complete; [wrk]: the threads *)
Record st := mkSt { str : smap stream; skt : smap bool; snd_ : smap bool; inq : smap (list pkt); plr : smap bool;
  npin : smap Z; first : smap Z; reld : pmap; drop : pmap; ignr : pmap; g_rcvd : Z; g_reld : Z; g_disc : Z;
  live : nat -> bool; cmpl : nat -> bool; wrk : bool -> wpc }.

(** What can be seen from outside: a datagram arrived; one left from the port of a stream for an address; one was ignored,
    dropped, taken by some other processor, read and thrown away because the session was not complete, or lost with the socket;
    the timeout of a stream was restarted; a thread began with a stream; the statistics and log lines at the end of a session:
    the number of packets of callee and caller and of packets relayed, dropped and ignored, and the times of the first packet
    logged for caller and callee *)
Inductive why := Early | Playing | Late | NoAddr.
Inductive event :=
| EArrive (x : sid) (k : pkt) | ESend (o : sid) (a : sockaddr) (k : pkt) | EIgnore (x : sid) (k : pkt)
| EDrop (x : sid) (k : pkt) (w : why) | ETake (x : sid) (k : pkt) (w : why) | EDrain (x : sid) (ks : list pkt) | ELost (x : sid) (ks : list pkt)
| ETtl (x : sid) | ETurn (x : sid) | ENoMedia (c : nat) (b : bool) | EOneWay (c : nat) (b : bool)
| EReport (c : nat) (b : bool) (callee caller rl dr ig : Z) | ETimes (c : nat) (caller callee : option Z) | ENull.

Definition set_str (s : st) f := mkSt f (skt s) (snd_ s) (inq s) (plr s) (npin s) (first s) (reld s) (drop s) (ignr s) (g_rcvd s) (g_reld s) (g_disc s) (live s) (cmpl s) (wrk s).
Definition set_skt (s : st) f := mkSt (str s) f (snd_ s) (inq s) (plr s) (npin s) (first s) (reld s) (drop s) (ignr s) (g_rcvd s) (g_reld s) (g_disc s) (live s) (cmpl s) (wrk s).
Definition set_snd (s : st) f := mkSt (str s) (skt s) f (inq s) (plr s) (npin s) (first s) (reld s) (drop s) (ignr s) (g_rcvd s) (g_reld s) (g_disc s) (live s) (cmpl s) (wrk s).
Definition set_inq (s : st) f := mkSt (str s) (skt s) (snd_ s) f (plr s) (npin s) (first s) (reld s) (drop s) (ignr s) (g_rcvd s) (g_reld s) (g_disc s) (live s) (cmpl s) (wrk s).
Definition set_plr (s : st) f := mkSt (str s) (skt s) (snd_ s) (inq s) f (npin s) (first s) (reld s) (drop s) (ignr s) (g_rcvd s) (g_reld s) (g_disc s) (live s) (cmpl s) (wrk s).
Definition set_in (s : st) f g := mkSt (str s) (skt s) (snd_ s) (inq s) (plr s) f g (reld s) (drop s) (ignr s) (g_rcvd s) (g_reld s) (g_disc s) (live s) (cmpl s) (wrk s).
Definition set_cnt (s : st) r d i := mkSt (str s) (skt s) (snd_ s) (inq s) (plr s) (npin s) (first s) r d i (g_rcvd s) (g_reld s) (g_disc s) (live s) (cmpl s) (wrk s).
Definition set_g (s : st) r l d := mkSt (str s) (skt s) (snd_ s) (inq s) (plr s) (npin s) (first s) (reld s) (drop s) (ignr s) (u64 r) (u64 l) (u64 d) (live s) (cmpl s) (wrk s).
Definition set_life (s : st) l c := mkSt (str s) (skt s) (snd_ s) (inq s) (plr s) (npin s) (first s) (reld s) (drop s) (ignr s) (g_rcvd s) (g_reld s) (g_disc s) l c (wrk s).
Definition set_wrk (s : st) (b : bool) (p : wpc) := mkSt (str s) (skt s) (snd_ s) (inq s) (plr s) (npin s) (first s) (reld s) (drop s) (ignr s) (g_rcvd s) (g_reld s) (g_disc s) (live s) (cmpl s)
  (fun b' => if Bool.eqb b' b then p else wrk s b').

(** rpcpv1_ul.c:933: the asymmetric flag of a stream *)
Definition with_asym (s : stream) (on : bool) : stream :=
  {| l_pipe := l_pipe s; l_asym := on; l_mode := l_mode s; l_rem := l_rem s; l_prev := l_prev s;
     l_latched := l_latched s; l_ssrc := l_ssrc s; l_seq := l_seq s; l_sync := l_sync s;
     l_untrusted := l_untrusted s; l_update := l_update s |}.

(** rtpp_proc_async.c:163: drain_repeat *)
Definition DRAIN : Z := 1.

(** _rtpp_stream_update_sendable, rtpp_stream.c:799-811 (the start of a player is in PlrModel) *)
Definition update_sendable (s : st) (x : sid) : st :=
  set_snd s (sset (snd_ s) x (skt s x && match l_rem (str s x) with Some _ => true | None => false end)).

(** End of an iteration of the loop of rxmit_packets: line 101 and lines 84-88 of the next one *)
Definition next (s : st) (b : bool) (x : sid) (nd : Z) : st :=
  set_wrk s b (if nd >? 0 then Rx x (nd - 1) else Idle).

(** rtpp_stream_rx: rtpp_stream.c:1187-1193, the addresses by LatchModel's rx (lines 1195-1238; line 1198 saw [empty]), lines
    1210, 1230 and 1244-1248; and rtpp_proc.c:95-98. *)
Definition receive (s : st) (b : bool) (x : sid) (nd : Z) (empty : bool) : st * list event :=
  match inq s x with
  | [] => (set_wrk s b Idle, [])
  | k :: q =>
      let s := set_inq s (sset (inq s) x q) in
      let s := set_g s (g_rcvd s + 1) (g_reld s) (g_disc s) in
      let c := if s_rtcp x then None else Some (str s (rtcp_of x)) in
      let '(l, c', v) := rx (str s x) c empty (k_h k) in
      let s := set_str s (sset (str s) x l) in
      let s := match c' with Some r => set_str s (sset (str s) (rtcp_of x) r) | None => s end in
      let s := update_sendable s x in
      let s := match c' with Some _ => update_sendable s (rtcp_of x) | None => s end in
      match v with
      | Discard =>
          let s := set_cnt s (reld s) (drop s) (padd (ignr s) x) in
          let s := set_g s (g_rcvd s) (g_reld s) (g_disc s + 1) in
          (next s b x (nd + 1), [EIgnore x k])
      | Accept => (set_wrk s b (Hold x nd k), [])
      end
  end.

(** pproc_manager.c:220-228 for a packet from the network *)
Definition dropped (s : st) (b : bool) (x : sid) (nd : Z) (k : pkt) (w : why) : st * list event :=
  let s := set_cnt s (reld s) (padd (drop s) x) (ignr s) in
  let s := set_g s (g_rcvd s) (g_reld s) (g_disc s + 1) in
  (next s b x nd, [EDrop x k w]).

(** reg_pktin, rtpp_pcnt_strm.c:115-120 *)
Definition reg_pktin (s : st) (x : sid) (k : pkt) : st :=
  set_in s (sset (npin s) x (u64 (npin s x + 1)))
           (if first s x =? 0 then sset (first s) x (p_time (k_h k)) else first s).

(** The chain (rtpp_proc.c:100) as far as line 283 of relay_packet. [chg]: the analyser says that the SSRC changed. *)
Definition handle (s : st) (b : bool) (x : sid) (nd : Z) (k : pkt) (chg : bool) (early late : act) : st * list event :=
  match early with
  | TAKE => (next s b x nd, [ETake x k Early])
  | DROP => dropped s b x nd k Early
  | NOP =>
      let s := reg_pktin s x k in
      let s := if s_rtcp x then s
               else update_sendable (set_str s (sset (str s) x (analyze (str s x) chg (k_h k)))) x in
      if plr s (sender_of x) then dropped s b x nd k Playing
      else match late with
           | TAKE => (next s b x nd, [ETake x k Late])
           | DROP => dropped s b x nd k Late
           | NOP =>
               if snd_ s (sender_of x) then (set_wrk s b (Ready x nd k), [ETtl x])
               else let '(s, e) := dropped s b x nd k NoAddr in (s, ETtl x :: e)
           end
  end.

(** relay_packet, lines 286-298, and rtpp_stream_send_pkt. The address is read under the stream's lock, now. *)
Definition transmit (s : st) (b : bool) (x : sid) (nd : Z) (k : pkt) : st * list event :=
  let o := sender_of x in
  match skt s o, l_rem (str s o) with
  | true, Some a =>
      let s := set_cnt s (padd (reld s) x) (drop s) (ignr s) in
      let s := set_g s (g_rcvd s) (g_reld s + 1) (g_disc s) in
      (next s b x nd, [ESend o a k])
  | _, _ => (next s b x nd, [ENull])      (* NULL socket, or an empty address *)
  end.

(** rtpp_pipe_get_stats (rtpp_pipe.c:191-221, o: stream[0], a: stream[1]) and rtpp_pipe_upd_cntrs (lines 231-238) of a pipe *)
Definition pipe_end (s : st) (c : nat) (b : bool) : list event :=
  let o := npin s (mkSid c b false) in
  let a := npin s (mkSid c b true) in
  let t x := if first s x >? 0 then Some (first s x) else None in
  [EReport c b o a (reld s c b) (drop s c b) (ignr s c b)] ++
  (if b then [] else [ETimes c (t (mkSid c false false)) (t (mkSid c false true))]) ++
  (if negb (cmpl s c) then []
   else if (o =? 0) && (a =? 0) then [ENoMedia c b]
   else if (o =? 0) || (a =? 0) then [EOneWay c b] else []).

Definition streams_of (c : nat) : list sid :=
  [mkSid c false false; mkSid c false true; mkSid c true false; mkSid c true true].

Definition busy (s : st) (c : nat) : bool :=
  let f p := match p with Idle => false | Rx x _ | Hold x _ _ | Ready x _ _ => Nat.eqb (s_call x) c end in
  f (wrk s false) || f (wrk s true).

Inductive op :=
| Arrive (x : sid) (k : pkt)                 (* the network *)
| Turn (x : sid)                             (* process_rtp_only: the thread of this kind of stream finds its socket ready *)
| Step (b : bool) (empty chg : bool) (early late : act)   (* the thread goes on *)
| Open (x : sid)                             (* a command gives the stream a socket *)
| Prefill (x : sid) (a : sockaddr) (now : Z) | Lock (x : sid) | Mode (x : sid) (m : lmode) | Asym (x : sid) (on : bool)
                                             (* commands and modules *)
| Play (x : sid) (on : bool)                 (* an announcement starts or ends *)
| Complete (c : nat)                         (* rpcpv1_ul.c:755 *)
| End (c : nat).                             (* rtpp_session_dtor, rtpp_session.c:283-302, when nobody uses the session *)

Definition step (s : st) (o : op) : st * list event :=
  match o with
  | Arrive x k =>
      if skt s x && live s (s_call x) then (set_inq s (sset (inq s) x (inq s x ++ [k])), [EArrive x k]) else (s, [])
  | Turn x =>
      match wrk s (s_rtcp x) with
      | Idle =>
          if negb (skt s x && live s (s_call x)) then (s, [])
          else if cmpl s (s_call x) then (set_wrk s (s_rtcp x) (Rx x (DRAIN - 1)), [ETurn x])
          else let n := Z.of_nat (length (inq s x)) in                  (* lines 171-181 *)
               (set_g (set_inq s (sset (inq s) x [])) (g_rcvd s) (g_reld s) (g_disc s + n), [ETurn x; EDrain x (inq s x)])
      | _ => (s, [])
      end
  | Step b empty chg early late =>
      match wrk s b with
      | Idle => (s, [])
      | Rx x nd => receive s b x nd empty
      | Hold x nd k => handle s b x nd k chg early late
      | Ready x nd k => transmit s b x nd k
      end
  | Open x => if live s (s_call x) then (update_sendable (set_skt s (sset (skt s) x true)) x, []) else (s, [])
  | Prefill x a now => (update_sendable (set_str s (sset (str s) x (prefill (str s x) a now))) x, [])
  | Lock x => (set_str s (sset (str s) x (locklatch (str s x))), [])
  | Mode x m => (set_str s (sset (str s) x (with_mode (str s x) m)), [])
  | Asym x on => (set_str s (sset (str s) x (with_asym (str s x) on)), [])
  | Play x on => (set_plr s (sset (plr s) x on), [])
  | Complete c => (set_life s (live s) (fun c' => if Nat.eqb c' c then true else cmpl s c'), [])
  | End c =>
      if busy s c || negb (live s c) then (s, [])
      else (set_inq (set_life s (fun c' => if Nat.eqb c' c then false else live s c') (cmpl s))
              (fun x => if Nat.eqb (s_call x) c then [] else inq s x),
            pipe_end s c false ++ pipe_end s c true ++ map (fun x => ELost x (inq s x)) (streams_of c))
  end.

Fixpoint run (s : st) (os : list op) : st * list event :=
  match os with
  | [] => (s, [])
  | o :: t => let '(s1, e1) := step s o in let '(s2, e2) := run s1 t in (s2, e1 ++ e2)
  end.

Definition start : st :=
  mkSt (fun x => new_stream (if s_rtcp x then PIPE_RTCP else PIPE_RTP) false) (fun _ => false) (fun _ => false) (fun _ => []) (fun _ => false)
    (fun _ => 0) (fun _ => 0) (fun _ _ => 0) (fun _ _ => 0) (fun _ _ => 0) 0 0 0 (fun _ => true) (fun _ => false) (fun _ => Idle).
