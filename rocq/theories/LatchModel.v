(** Model of how a media stream learns and keeps the address of its peer,
    src/rtpp_stream.c:645-920 and 1129-1249, with src/rtpp_netaddr.c. *)
From Verif Require Import Base AddrModel.

(** Times are in microseconds (the code: doubles, in seconds). *)
(** UPDATE_WINDOW, src/rtpp_defines.h:48, and SEQ_SYNC_IVAL, src/rtpp_stream.c:91 *)
Definition UPDATE_WINDOW : Z := 10000000.
Definition SEQ_SYNC_IVAL : Z := 1000000.
(** SSRC_BAD, src/rtpp_ssrc.h:32 *)
Definition SSRC_BAD : Z := 0.

(** SEQ_DIST, src/rtp.h:138-139, of 16-bit numbers *)
Definition seq_dist (a b : Z) : Z := if b >=? a then b - a else b + 65536 - a.

Inductive pipe_type := PIPE_RTP | PIPE_RTCP.
(** enum rtpps_latch_mode, src/rtpp_stream.h:50-54 *)
Inductive lmode := NORMAL | FORCE_OFF | FORCE_ON.

(** struct rtp_packet: who sent it, when it came, SSRC and sequence number ([None] when
    rtp_packet_parse fails). *)
Record packet := { p_from : sockaddr; p_time : Z; p_rtp : option (Z * Z) }.

(** The parts of struct rtpp_stream and rtpp_stream_priv that have to do with addresses.
    [l_rem], [l_prev]: rem_addr and raddr_prev, [None] when empty (rlen == 0). [l_ssrc]: [None] when
    ssrc.inited == 0. [l_update]: last_update. Comparison of addresses with memcmp is equality here;
    padding bytes, flow label and scope of an address are not modelled. The library's packet ports
    (packetport) are not modelled, nor are counters, the player and is_sendable. *)
Record stream := {
  l_pipe : pipe_type; l_asym : bool; l_mode : lmode;
  l_rem : option sockaddr; l_prev : option sockaddr;
  l_latched : bool; l_ssrc : option Z; l_seq : Z; l_sync : Z;
  l_untrusted : bool; l_update : Z
}.

Definition with_addr (s : stream) (rem : option sockaddr) (latched untrusted : bool) : stream :=
  {| l_pipe := l_pipe s; l_asym := l_asym s; l_mode := l_mode s; l_rem := rem; l_prev := l_prev s;
     l_latched := latched; l_ssrc := l_ssrc s; l_seq := l_seq s; l_sync := l_sync s;
     l_untrusted := untrusted; l_update := l_update s |}.
Definition with_latch (s : stream) (latched : bool) (ssrc : option Z) (seq sync : Z) : stream :=
  {| l_pipe := l_pipe s; l_asym := l_asym s; l_mode := l_mode s; l_rem := l_rem s; l_prev := l_prev s;
     l_latched := latched; l_ssrc := ssrc; l_seq := seq; l_sync := sync;
     l_untrusted := l_untrusted s; l_update := l_update s |}.
Definition with_mode (s : stream) (m : lmode) : stream :=
  {| l_pipe := l_pipe s; l_asym := l_asym s; l_mode := m; l_rem := l_rem s; l_prev := l_prev s;
     l_latched := l_latched s; l_ssrc := l_ssrc s; l_seq := l_seq s; l_sync := l_sync s;
     l_untrusted := l_untrusted s; l_update := l_update s |}.
Definition with_update (s : stream) (rem prev : option sockaddr) (update : Z) : stream :=
  {| l_pipe := l_pipe s; l_asym := l_asym s; l_mode := l_mode s; l_rem := rem; l_prev := prev;
     l_latched := l_latched s; l_ssrc := l_ssrc s; l_seq := l_seq s; l_sync := l_sync s;
     l_untrusted := l_untrusted s; l_update := update |}.

Definition sa_eqb (a b : sockaddr) : bool :=
  match a, b with
  | SaIn h p, SaIn h' p' => (h =? h') && (p =? p')
  | SaIn6 h p, SaIn6 h' p' => bytes_eqb h h' && (p =? p')
  | SaOther f, SaOther f' => f =? f'
  | _, _ => false
  end.

(** __rtpp_stream_fill_addr, lines 813-834 *)
Definition fill_addr0 (s : stream) (p : packet) : stream :=
  let fresh := match l_prev s with None => true | Some a => negb (sa_eqb a (p_from p)) end in
  with_addr s (Some (p_from p)) (if fresh then true else l_latched s) true.

(** rtpp_stream_guess_addr, lines 836-870, of the RTCP stream, for a packet of its RTP stream. The
    debug assertion of line 845 is not modelled. *)
Definition guess_addr (s : stream) (p : packet) : stream :=
  let same := match l_rem s with
              | None => false
              | Some a => match ishostseq a (p_from p) with Some b => b | None => false end
              end in
  if same then s
  else match getport (p_from p) with
       | None => s
       | Some rport =>
           if rport =? 65535 then s
           else match setport (p_from p) (rport + 1) with
                | None => s
                | Some ta => with_addr s (Some ta) (l_asym s) (l_untrusted s)
                end
       end.

(** _rtpp_stream_fill_addr, lines 1159-1178: the stream and its RTCP stream, if it has one. *)
Definition fill_addr (s : stream) (c : option stream) (p : packet) : stream * option stream :=
  (fill_addr0 s p, match c with Some r => Some (guess_addr r p) | None => None end).

(** _rtpp_stream_latch, lines 645-701 *)
Definition latch (s : stream) (now : Z) (p : packet) : stream :=
  match l_mode s with
  | FORCE_ON => fill_addr0 s p
  | _ =>
      if negb (l_update s =? 0) && (now - l_update s <? UPDATE_WINDOW) then s
      else
        let '(ssrc, seq, sync) :=
          match l_pipe s with
          | PIPE_RTP => match p_rtp p with
                        | Some (v, q) => (Some v, q, now)
                        | None => (None, l_seq s, l_sync s)
                        end
          | PIPE_RTCP => (None, l_seq s, l_sync s)
          end in
        let bad := match ssrc with Some v => v =? SSRC_BAD | None => false end in
        with_latch s (negb bad) ssrc seq sync
  end.

(** _rtpp_stream_latch_sync, lines 737-754 *)
Definition latch_sync (s : stream) (now : Z) (p : packet) : stream :=
  match l_pipe s, l_ssrc s with
  | PIPE_RTP, Some v =>
      if now - l_sync s <? SEQ_SYNC_IVAL then s
      else match p_rtp p with
           | Some (v', q) => if negb (v =? v') then s
                             else with_latch s (l_latched s) (l_ssrc s) q now
           | None => s
           end
  | _, _ => s
  end.

(** _rtpp_stream_check_latch_override, lines 756-787: the new state, or [None] for "no". *)
Definition override (s : stream) (now : Z) (p : packet) : option stream :=
  match l_pipe s, l_ssrc s with
  | PIPE_RTP, Some v =>
      match l_mode s with
      | FORCE_ON => None
      | _ =>
          match p_rtp p with
          | None => None
          | Some (v', q) =>
              if ((l_update s =? 0) || (now - l_update s >? UPDATE_WINDOW)) &&
                 (negb (v' =? v) || (seq_dist (l_seq s) q >? 536))
              then None
              else Some (with_latch s (l_latched s) (l_ssrc s) q (p_time p))
          end
      end
  | _, _ => None
  end.

(** What happened to a packet. *)
Inductive verdict := Accept | Discard.

(** rtpp_stream_rx, lines 1180-1249, after the packet was received. [c] is the stream of the RTCP
    of this RTP stream. [empty]: whether line 1198 saw an empty address; that test is made without
    the lock. *)
Definition rx (s : stream) (c : option stream) (empty : bool) (p : packet)
  : stream * option stream * verdict :=
  let now := p_time p in
  match l_mode s with
  | FORCE_OFF => (s, c, Accept)
  | _ =>
      let sync r := let '(s1, c1) := r in (latch_sync s1 now p, c1, Accept) in
      match l_rem s with
      | Some a =>
          if empty then sync (fill_addr s c p)
          else if negb (l_asym s) then
            if negb (sa_eqb a (p_from p)) then
              if l_latched s then
                match override s now p with
                | None => (s, c, Discard)
                | Some s1 => sync (fill_addr s1 c p)
                end
              else sync (fill_addr (latch s now p) c p)
            else if negb (l_latched s) then sync (latch s now p, c)
            else sync (s, c)
          else match ishostseq a (p_from p) with
               | Some true => sync (s, c)
               | _ => (s, c, Discard)
               end
      | None => sync (fill_addr s c p)
      end
  end.

(** analyze_rtp_packet, lines 219-231, for an accepted RTP packet. [chg]: the analyser says the
    SSRC changed (for that the packet must parse). rtpp_stream_latch, lines 703-717. *)
Definition analyze (s : stream) (chg : bool) (p : packet) : stream :=
  match p_rtp p, l_mode s with
  | None, _ => s
  | _, FORCE_ON => s
  | _, _ => if chg then latch s (p_time p) p else s
  end.

(** rtpp_stream_prefill_addr, lines 872-920: the address a command gives. *)
Definition prefill (s : stream) (a : sockaddr) (now : Z) : stream :=
  let upd := match l_rem s with Some _ => now | None => l_update s end in
  if l_untrusted s then with_update s (l_rem s) (l_prev s) upd
  else match l_rem s with
       | Some r =>
           if match isaddrseq r a with Some b => b | None => false end
           then with_update s (l_rem s) (l_prev s) upd
           else with_update s (Some a) (if l_latched s then Some r else l_prev s) upd
       | None => with_update s (Some a) (l_prev s) upd
       end.

(** rtpp_stream_locklatch, lines 1137-1146 *)
Definition locklatch (s : stream) : stream := with_latch s true (l_ssrc s) (l_seq s) (l_sync s).

(** One direction of a call: an RTP stream and its RTCP stream. *)
Record leg := { g_rtp : stream; g_rtcp : stream }.

Inductive event :=
| RtpIn (p : packet) (empty chg : bool)
| RtcpIn (p : packet) (empty : bool)
| Update (a_rtp a_rtcp : sockaddr) (now : Z)    (* rpcpv1_ul.c:918-921 *)
| Lock                                         (* rpcpv1_ul.c:935-936 *)
| SetMode (rtp : bool) (m : lmode).

(** One event. The RTCP stream has no RTCP stream of its own (stuid_rtcp is RTPP_UID_NONE). *)
Definition step (g : leg) (e : event) : leg * option verdict :=
  match e with
  | RtpIn p empty chg =>
      let '(s, c, v) := rx (g_rtp g) (Some (g_rtcp g)) empty p in
      let c := match c with Some c => c | None => g_rtcp g end in
      let s := match v with Accept => analyze s chg p | Discard => s end in
      ({| g_rtp := s; g_rtcp := c |}, Some v)
  | RtcpIn p empty =>
      let '(s, _, v) := rx (g_rtcp g) None empty p in
      ({| g_rtp := g_rtp g; g_rtcp := s |}, Some v)
  | Update a b now => ({| g_rtp := prefill (g_rtp g) a now; g_rtcp := prefill (g_rtcp g) b now |}, None)
  | Lock => ({| g_rtp := locklatch (g_rtp g); g_rtcp := locklatch (g_rtcp g) |}, None)
  | SetMode true m => ({| g_rtp := with_mode (g_rtp g) m; g_rtcp := g_rtcp g |}, None)
  | SetMode false m => ({| g_rtp := g_rtp g; g_rtcp := with_mode (g_rtcp g) m |}, None)
  end.

(** A history: the state after it and the verdicts, one per event. *)
Fixpoint run (g : leg) (es : list event) : leg * list (option verdict) :=
  match es with
  | [] => (g, [])
  | e :: t => let '(g1, v) := step g e in
              let '(g2, vs) := run g1 t in (g2, v :: vs)
  end.

(** A new stream (rtpp_stream_ctor: everything zero). *)
Definition new_stream (t : pipe_type) (asym : bool) : stream :=
  {| l_pipe := t; l_asym := asym; l_mode := NORMAL; l_rem := None; l_prev := None;
     l_latched := false; l_ssrc := None; l_seq := 0; l_sync := 0; l_untrusted := false; l_update := 0 |}.
