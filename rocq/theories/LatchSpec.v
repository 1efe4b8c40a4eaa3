(** What the peer of a media stream relies on. *)
From Verif Require Import Base AddrModel LatchModel.

(** A stream in normal use that knows and has latched the address of its peer. *)
Definition protected (s : stream) (a : sockaddr) : Prop :=
  l_rem s = Some a /\ l_latched s = true /\ l_asym s = false /\ l_mode s <> FORCE_OFF.

(** The packet continues the latched media: RTP with the latched SSRC and a sequence number at most
    536 ahead (modulo 2^16) of the last one noted. *)
Definition continues (s : stream) (p : packet) : Prop :=
  l_pipe s = PIPE_RTP /\ l_mode s = NORMAL /\
  exists v q, l_ssrc s = Some v /\ p_rtp p = Some (v, q) /\ (q - l_seq s) mod 65536 <= 536.

(** The packet is RTP and comes within 10 seconds of a command that updated the stream, and the
    stream has latched an SSRC. *)
Definition in_update_window (s : stream) (p : packet) : Prop :=
  l_pipe s = PIPE_RTP /\ l_mode s = NORMAL /\ l_ssrc s <> None /\ p_rtp p <> None /\
  l_update s <> 0 /\ p_time p - l_update s <= 10000000.

(** A packet from somebody else that has no excuse. *)
Definition off_path (s : stream) (p : packet) : Prop :=
  l_rem s <> Some (p_from p) /\ ~ continues s p /\ ~ in_update_window s p.

(** 16-bit sequence numbers, IPv4 or IPv6 addresses. *)
Definition wf_packet (p : packet) : Prop :=
  inet (p_from p) = true /\
  match p_rtp p with Some (_, q) => 0 <= q < 65536 | None => True end /\
  match getport (p_from p) with Some x => 0 <= x <= 65535 | None => True end.
Definition wf_addr (a : sockaddr) : Prop :=
  inet a = true /\ match getport a with Some x => 0 <= x <= 65535 | None => True end.
Definition wf_stream (s : stream) : Prop :=
  0 <= l_seq s < 65536 /\
  (match l_rem s with Some a => wf_addr a | None => True end) /\
  (l_pipe s = PIPE_RTCP -> l_ssrc s = None).
Definition wf_leg (g : leg) : Prop :=
  wf_stream (g_rtp g) /\ wf_stream (g_rtcp g) /\ l_pipe (g_rtcp g) = PIPE_RTCP.
Definition wf_event (e : event) : Prop :=
  match e with
  | RtpIn p _ _ => wf_packet p
  | RtcpIn p _ => wf_packet p
  | Update a b _ => wf_addr a /\ wf_addr b
  | _ => True
  end.

(** The event is an attack on the leg: an off-path packet for a protected stream, seen as
    protected (its address was known when the packet came in). *)
Definition attack (g : leg) (e : event) : Prop :=
  match e with
  | RtpIn p empty _ => empty = false /\ (exists a, protected (g_rtp g) a) /\ off_path (g_rtp g) p
  | RtcpIn p empty => empty = false /\ (exists a, protected (g_rtcp g) a) /\ off_path (g_rtcp g) p
  | _ => False
  end.

(** [mixed g es fs vs]: [es] is [fs] with attacks mixed in, and [vs] are the verdicts [fs] gets
    when it is alone, with [Discard] in the places of the attacks. *)
Inductive mixed : leg -> list event -> list event -> list (option verdict) -> Prop :=
| mx_nil g : mixed g [] [] []
| mx_good g e es fs vs : mixed (fst (step g e)) es fs vs ->
    mixed g (e :: es) (e :: fs) (snd (step g e) :: vs)
| mx_attack g e es fs vs : attack g e -> mixed g es fs vs ->
    mixed g (e :: es) fs (Some Discard :: vs).

(** A packet of the peer itself: from its address, and not with the reserved SSRC 0. *)
Definition from_peer (s : stream) (p : packet) : Prop :=
  l_rem s = Some (p_from p) /\ match p_rtp p with Some (v, _) => v <> 0 | None => True end.

(** A history of packets only, where each is from the peer or an attack. *)
Inductive peaceful : leg -> list event -> Prop :=
| pc_nil g : peaceful g []
| pc_cons g e es :
    (attack g e \/
     match e with
     | RtpIn p empty _ => empty = false /\ from_peer (g_rtp g) p
     | RtcpIn p empty => empty = false /\ from_peer (g_rtcp g) p
     | _ => False
     end) ->
    peaceful (fst (step g e)) es -> peaceful g (e :: es).

(** [b] is the next port of the host of [a]. *)
Definition next_port (a b : sockaddr) : Prop :=
  match a, b with
  | SaIn h x, SaIn h' y => h' = h /\ y = x + 1
  | SaIn6 h x, SaIn6 h' y => h' = h /\ y = x + 1
  | _, _ => False
  end.

(** Commands come at times after 0 (the clock starts at boot). *)
Definition timed_event (e : event) : Prop := match e with Update _ _ t => t > 0 | _ => True end.
