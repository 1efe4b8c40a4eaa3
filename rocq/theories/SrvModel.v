(** Model of the player of announcements: src/rtpp_server.c:89-286 and the sending loop of
    src/rtpp_proc_servers.c:124-147. *)
From Verif Require Import Base.

(** RTPS_TICKS_MIN and RTPS_SRATE, src/rtpp_server.c; MAX_RPKT_LEN, src/rtp_packet.h:37 *)
Definition RTPS_TICKS_MIN : Z := 10.
Definition RTPS_SRATE : Z := 8000.
Definition MAX_RPKT_LEN : Z := 8192.

(** struct rtpp_server_priv, lines 59-70. Times are in microseconds (the code: a double in
    seconds). [sv_dts] is in milliseconds and unbounded (the code: uint64_t). The header is kept as
    its fields in host order. [sv_pos] is the offset of the file descriptor. *)
Record server := {
  sv_btime : Z; sv_started : bool; sv_pos : Z; sv_loop : Z; sv_dts : Z; sv_ptime : Z;
  sv_mbt : Z; sv_pt : Z; sv_seq : Z; sv_ts : Z; sv_ssrc : Z
}.

(** What the system does for one call: whether memory is there, whether reading or seeking the
    file works. *)
Record io := { io_alloc : bool; io_read1 : bool; io_seek : bool; io_read2 : bool }.
Definition io_ok : io := {| io_alloc := true; io_read1 := true; io_seek := true; io_read2 := true |}.

(** rtpp_server_ctor, lines 97-134, once the file is open. [r1], [r2], [r3] are the random numbers.
    pt is a field of 7 bits. *)
Definition server_new (codec loop ptime r1 r2 r3 : Z) : server :=
  {| sv_btime := 0; sv_started := false; sv_pos := 0;
     sv_loop := if loop >? 0 then loop - 1 else loop;
     sv_dts := 0;
     sv_ptime := if ptime >? 0 then ptime else RTPS_TICKS_MIN;
     sv_mbt := 1; sv_pt := codec mod 128;
     sv_seq := u16 r2; sv_ts := u32 r1; sv_ssrc := u32 r3 |}.

(** rtpp_server_start, lines 277-286 *)
Definition server_start (s : server) (dtime : Z) : server :=
  {| sv_btime := dtime; sv_started := true; sv_pos := sv_pos s; sv_loop := sv_loop s;
     sv_dts := sv_dts s; sv_ptime := sv_ptime s; sv_mbt := sv_mbt s; sv_pt := sv_pt s;
     sv_seq := sv_seq s; sv_ts := sv_ts s; sv_ssrc := sv_ssrc s |}.

(** Lines 166-199: bytes and milliseconds per frame *)
Definition frame (pt : Z) : option (Z * Z) :=
  match pt with
  | 0 | 8 => Some (8, 1)
  | 18 => Some (10, 10)
  | 4 => Some (24, 30)
  | 3 => Some (33, 20)
  | 9 => Some (8, 1)
  | _ => None
  end.

(** Lines 201-203 *)
Definition nframes (ptime ticks : Z) : Z :=
  ptime / ticks + (if ptime mod ticks =? 0 then 0 else 1).

(** read(2) of [n] bytes at [pos]: the bytes that come. *)
Definition rd_file (file : list Z) (pos n : Z) : list Z :=
  firstn (Z.to_nat n) (skipn (Z.to_nat pos) file).

(** struct rtp_hdr, src/rtp.h:80-100, version 2, no padding, extension or CSRC, on the wire *)
Definition header (s : server) : list Z :=
  [128; sv_mbt s * 128 + sv_pt s; sv_seq s / 256; sv_seq s mod 256;
   sv_ts s / 16777216; sv_ts s / 65536 mod 256; sv_ts s / 256 mod 256; sv_ts s mod 256;
   sv_ssrc s / 16777216; sv_ssrc s / 65536 mod 256; sv_ssrc s / 256 mod 256; sv_ssrc s mod 256].
Definition hlen : Z := 12.

(** What a call returns: a datagram, one of the codes of src/rtpp_server.h:65-68, or the read ran
    over the end of the packet buffer. *)
Inductive gres := GPkt (d : list Z) | GLater | GEof | GError | GNomem | GOverrun.

Definition with_dts (s : server) (dts : Z) : server :=
  {| sv_btime := sv_btime s; sv_started := sv_started s; sv_pos := sv_pos s; sv_loop := sv_loop s;
     sv_dts := dts; sv_ptime := sv_ptime s; sv_mbt := sv_mbt s; sv_pt := sv_pt s;
     sv_seq := sv_seq s; sv_ts := sv_ts s; sv_ssrc := sv_ssrc s |}.
Definition with_pos (s : server) (pos loop : Z) : server :=
  {| sv_btime := sv_btime s; sv_started := sv_started s; sv_pos := pos; sv_loop := loop;
     sv_dts := sv_dts s; sv_ptime := sv_ptime s; sv_mbt := sv_mbt s; sv_pt := sv_pt s;
     sv_seq := sv_seq s; sv_ts := sv_ts s; sv_ssrc := sv_ssrc s |}.
(** Lines 229-235 *)
Definition advance (s : server) (rticks : Z) : server :=
  {| sv_btime := sv_btime s; sv_started := sv_started s; sv_pos := sv_pos s; sv_loop := sv_loop s;
     sv_dts := sv_dts s; sv_ptime := sv_ptime s; sv_mbt := 0; sv_pt := sv_pt s;
     sv_seq := u16 (sv_seq s + 1); sv_ts := u32 (sv_ts s + RTPS_SRATE * rticks / 1000);
     sv_ssrc := sv_ssrc s |}.

(** Lines 216-225: reading the media, from the start again when it is at the end and is to be
    repeated. [None] in the second place is a buffer overrun. *)
Inductive rdres := RdGot (b : list Z) | RdEof | RdOverrun.
Definition read_media (file : list Z) (s : server) (rlen : Z) (i : io) : server * rdres :=
  let fits (b : list Z) := hlen + Z.of_nat (length b) <=? MAX_RPKT_LEN in
  let b1 := if io_read1 i then rd_file file (sv_pos s) rlen else [] in
  let s1 := with_pos s (sv_pos s + Z.of_nat (length b1)) (sv_loop s) in
  if negb (fits b1) then (s1, RdOverrun)
  else if io_read1 i && (Z.of_nat (length b1) =? rlen) then (s1, RdGot b1)
  else if sv_loop s1 =? 0 then (s1, RdEof)
  else if negb (io_seek i) then (s1, RdEof)
  else
    let b2 := if io_read2 i then rd_file file 0 rlen else [] in
    let s2 := with_pos s1 (Z.of_nat (length b2)) (sv_loop s1) in
    if negb (fits b2) then (s2, RdOverrun)
    else if io_read2 i && (Z.of_nat (length b2) =? rlen) then
      (with_pos s2 (sv_pos s2) (if negb (sv_loop s2 =? -1) then sv_loop s2 - 1 else sv_loop s2), RdGot b2)
    else (s2, RdEof).

(** rtpp_server_get, lines 150-239 *)
Definition get (file : list Z) (s : server) (dtime : Z) (i : io) : server * gres :=
  if negb (sv_started s) || (sv_btime s + sv_dts s * 1000 >? dtime) then (s, GLater)
  else match frame (sv_pt s) with
       | None => (s, GError)
       | Some (bytes_per_frame, ticks_per_frame) =>
           let n := nframes (sv_ptime s) ticks_per_frame in
           let rlen := bytes_per_frame * n in
           let rticks := ticks_per_frame * n in
           let s1 := with_dts s (sv_dts s + rticks) in
           if negb (io_alloc i) then (s1, GNomem)
           else match read_media file s1 rlen i with
                | (s2, RdOverrun) => (s2, GOverrun)
                | (s2, RdEof) => (s2, GEof)
                | (s2, RdGot b) => (advance s2 rticks, GPkt (header s2 ++ b))
                end
       end.

(** A history of calls, each at some time. *)
Fixpoint run (file : list Z) (s : server) (cs : list (Z * io)) : server * list gres :=
  match cs with
  | [] => (s, [])
  | (t, i) :: r => let '(s1, g) := get file s t i in
                   let '(s2, gs) := run file s1 r in (s2, g :: gs)
  end.

(** The loop of process_rtp_servers_foreach, src/rtpp_proc_servers.c:124-147: one turn of the
    player thread at time [t], all system calls working. The datagrams sent, and what ended the
    loop ([None]: the bound of this model, see the theorem). *)
Fixpoint drain (fuel : nat) (file : list Z) (s : server) (t : Z) : server * list (list Z) * option gres :=
  match fuel with
  | O => (s, [], None)
  | S f => match get file s t io_ok with
           | (s1, GPkt d) => let '(s2, ds, e) := drain f file s1 t in (s2, d :: ds, e)
           | (s1, e) => (s1, [], Some e)
           end
  end.
