(** Model of how a packet is read from a socket: its bytes, its addresses and its time.
    Code: src/rtpp_network_io.c, src/rtpp_socket.c. *)
From Verif Require Import Base.

(** a control message of recvmsg(): the address the packet was sent to (IP_PKTINFO), the time of its arrival in
    seconds and microseconds (SCM_TIMESTAMP), or another one.  This is the build for Linux, without IP_RECVDSTADDR and
    SO_TS_CLOCK *)
Inductive cmsg := CDst (a : Z) | CTime (sec usec : Z) | COther.

(** what is waiting in the socket: the bytes, the sender and the control messages *)
Record dgram := Dgram { d_data : list Z; d_from : Z * Z; d_cmsgs : list cmsg }.

(** the loop over control messages of _recvfromto (rtpp_network_io.c:72-99): [t] is *tp, [to] is the address in [to]
    if *tolen is not 0; the loop ends with the first address *)
Fixpoint cmsg_loop (l : list cmsg) (t : Z * Z) : option Z * (Z * Z) :=
  match l with
  | [] => (None, t)
  | CDst a :: _ => (Some a, t)
  | CTime s u :: l => cmsg_loop l (s, u)
  | COther :: l => cmsg_loop l t
  end.

(** what recvmsg() puts in a buffer of [len] bytes and returns *)
Definition cut (len : Z) (data : list Z) : list Z := firstn (Z.to_nat len) data.

(** recvfromto (rtpp_network_io.c:104-119): the time in seconds and nanoseconds, 0 without one *)
Definition recvfromto (len : Z) (d : dgram) : list Z * (Z * Z) * option Z * (Z * Z) :=
  let (to, t) := cmsg_loop (d_cmsgs d) (0, 0) in (cut len (d_data d), d_from d, to, (fst t, snd t * 1000)).

(** the time of a packet in nanoseconds (timespec2dtime, rtpp_time.h:67).  Simplification: integers for the double *)
Definition wall_of (t : Z * Z) : Z := fst t * 1000000000 + snd t.

(** the fields of struct rtp_packet that are set (rtp_packet.h); times that are not set are None, and addresses and
    ports are numbers *)
Record pkt := Pkt { p_data : list Z; p_size : Z; p_raddr : Z * Z; p_laddr : Z * Z; p_lport : Z; p_wall : option Z; p_mono : option Z }.

(** struct rs_recv_arg (rtpp_socket.c:59-64): the time of the poll (dtime: wall and monotonic), the address and the
    port the socket is bound to *)
Record rarg := RArg { a_time : option (Z * Z); a_laddr : Z * Z; a_port : Z }.

(** a queue of what recvmsg() will give: a datagram, or an error other than "none is there" *)
Inductive item := IPkt (d : dgram) | IErr.
Definition next (q : list item) : list item * option dgram :=
  match q with [] => ([], None) | IErr :: q => (q, None) | IPkt d :: q => (q, Some d) end.

(** sizeof(packet->data.buf), MAX_RPKT_LEN (rtp_packet.h:37, 66); the buffer has any size [buflen] below *)
Definition max_rpkt_len : Z := 8192.
Section Recv.
  Context (buflen : Z).

  (** rtpp_socket_rtp_recv_simple (rtpp_socket.c:280-306).  Simplification: rtp_packet_alloc() succeeds *)
  Definition recv_simple (ra : rarg) (q : list item) : list item * option pkt :=
    match next q with
    | (q, None) => (q, None)
    | (q, Some d) =>
        let b := cut buflen (d_data d) in
        (q, Some (Pkt b (Z.of_nat (length b)) (d_from d) (a_laddr ra) (a_port ra)
                    (match a_time ra with Some (w, _) => Some w | None => None end)
                    (match a_time ra with Some (_, m) => Some m | None => None end)))
    end.

  (** _rtpp_socket_rtp_recv and rtpp_socket_rtp_recv_ts (rtpp_socket.c:311-363) with recvfromto *)
  Definition recv_ts (ra : rarg) (q : list item) : list item * option pkt :=
    match next q with
    | (q, None) => (q, None)
    | (q, Some d) =>
        let '(b, from, to, t) := recvfromto buflen d in
        let laddr := match to with Some a => (a, a_port ra) | None => a_laddr ra end in
        let (w, m) :=
          match a_time ra with
          | None => (None, None)
          | Some (wall, mono) => (Some (if (fst t =? 0) && (snd t =? 0) then wall else wall_of t), Some mono)
          end in
        (q, Some (Pkt b (Z.of_nat (length b)) from laddr (a_port ra) w m))
    end.

  (** rtpp_socket_drain (rtpp_socket.c:390-417): the packets discarded; [fuel] bounds the loop *)
  Fixpoint drain (q : list item) (fuel : nat) : option (list item * Z) :=
    match fuel with
    | O => None
    | S fuel =>
        match next q with
        | (q, None) => Some (q, 0)
        | (q, Some _) => match drain q fuel with Some (q, n) => Some (q, n + 1) | None => None end
        end
    end.
End Recv.
