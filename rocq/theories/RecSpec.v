(** What a reader of a recording sees. *)
From Verif Require Import Base CksumSpec TimeModel RecModel.

(** Numbers in network and in little-endian byte order *)
Definition be_num (l : list Z) : Z := fold_left (fun a b => 256 * a + b) l 0.
Definition le_num (l : list Z) : Z := be_num (rev l).
Definition sub (l : list Z) (i n : nat) : list Z := firstn n (skipn i l).
Definition len (l : list Z) : Z := Z.of_nat (length l).

(** A UDP datagram: who sent it to whom, and the payload *)
Record dgram := mkDg { g_v6 : bool; g_src : list Z; g_sport : Z; g_dst : list Z; g_dport : Z; g_data : list Z }.

(** A reader that insists on correct lengths and checksums *)
Definition parse_udp (v6 : bool) (src dst : list Z) (u : list Z) : option dgram :=
  let ulen := be_num (sub u 4 2) in
  let ph := if v6 then pseudo6 src dst ulen else pseudo4 src dst ulen in
  if (8 <=? len u) && (ulen =? len u) && (oc_sum (ph ++ u) =? 65535)
  then Some (mkDg v6 src (be_num (sub u 0 2)) dst (be_num (sub u 2 2)) (skipn 8 u))
  else None.
Definition parse_ip4 (ip : list Z) : option dgram :=
  if (be_num (sub ip 0 1) =? 69) && (be_num (sub ip 2 2) =? len ip) && (be_num (sub ip 6 2) =? 0) &&
     (be_num (sub ip 9 1) =? 17) && (oc_sum (sub ip 0 20) =? 65535)
  then parse_udp false (sub ip 12 4) (sub ip 16 4) (skipn 20 ip) else None.
Definition parse_ip6 (ip : list Z) : option dgram :=
  if (be_num (sub ip 0 1) =? 96) && (be_num (sub ip 4 2) =? len ip - 40) && (be_num (sub ip 6 1) =? 17)
  then parse_udp true (sub ip 8 16) (sub ip 24 16) (skipn 40 ip) else None.
Definition parse_frame (f : list Z) : option dgram :=
  if be_num (sub f 12 2) =? 2048 then parse_ip4 (skipn 14 f)
  else if be_num (sub f 12 2) =? 34525 then parse_ip6 (skipn 14 f)
  else None.

(** A pcap file in little-endian order: the file header, then records (time in seconds and microseconds, frame) *)
Fixpoint parse_recs (fuel : nat) (l : list Z) : option (list (Z * Z * dgram)) :=
  match l, fuel with
  | [], _ => Some []
  | _, O => None
  | _, S fuel =>
      let n := le_num (sub l 8 4) in
      if (16 + n <=? len l) && (le_num (sub l 12 4) =? n) then
        match parse_frame (sub l 16 (Z.to_nat n)), parse_recs fuel (skipn (16 + Z.to_nat n) l) with
        | Some g, Some t => Some ((le_num (sub l 0 4), le_num (sub l 4 4), g) :: t)
        | _, _ => None
        end
      else None
  end.
Definition parse_pcap (l : list Z) : option (list (Z * Z * dgram)) :=
  if (24 <=? len l) && (le_num (sub l 0 4) =? 2712847316) && (le_num (sub l 4 2) =? 2) && (le_num (sub l 6 2) =? 4) &&
     (le_num (sub l 20 4) =? 1)
  then parse_recs (length l) (skipn 24 l) else None.

(** The older format: source address, time (a double), length, payload *)
Record adrec := mkAd { a_v6 : bool; a_src : list Z; a_sport : Z; a_time : Z; a_data : list Z }.
Fixpoint parse_adhoc (fuel : nat) (l : list Z) : option (list adrec) :=
  match l, fuel with
  | [], _ => Some []
  | _, O => None
  | _, S fuel =>
      let n := le_num (sub l 28 2) in
      let fm := le_num (sub l 0 2) in
      if (30 + n <=? len l) && ((fm =? 2) || (fm =? 10)) then
        match parse_adhoc fuel (skipn (30 + Z.to_nat n) l) with
        | Some t => Some (mkAd (fm =? 10) (sub l 4 (if fm =? 10 then 16 else 4)) (be_num (sub l 2 2))
                            (le_num (sub l 20 8)) (sub l 30 (Z.to_nat n)) :: t)
        | None => None
        end
      else None
  end.

(** What should be read: packets of an RTP recording (and of separate recordings) appear as they came in, from the remote
    peer to the local address; RTCP in a common recording as it goes out. An unspecified local address is replaced by the
    one the system would use to talk to the peer; the packet cannot be recorded when that is unknown. *)
Definition null (a : list Z) : bool := forallb (fun b => b =? 0) a.
Definition local_end (local peer : list Z) (l4r : option (list Z)) : option (list Z) :=
  if null local && negb (null peer) then l4r else Some local.
Definition rem_ip (p : pkt) : list Z :=
  match p_orem p with Some a => s_ip a | None => zeros (length (s_ip (p_oaddr p))) end.
Definition rem_port (p : pkt) : Z := match p_orem p with Some a => s_port a | None => 0 end.
Definition is_v6 (f : fam) : bool := match f with V6 => true | V4 => false end.
Definition view (single : bool) (p : pkt) : option dgram :=
  if single && p_rtcp p then
    match local_end (s_ip (p_oaddr p)) (rem_ip p) (p_l4r p) with
    | Some l => Some (mkDg (is_v6 (s_fam (p_oaddr p))) l (s_port (p_oaddr p)) (rem_ip p) (rem_port p) (p_data p))
    | None => None
    end
  else
    match local_end (p_laddr p) (s_ip (p_raddr p)) (p_l4r p) with
    | Some l => Some (mkDg (is_v6 (s_fam (p_raddr p))) (s_ip (p_raddr p)) (s_port (p_raddr p)) l (p_lport p) (p_data p))
    | None => None
    end.
(** With the time the double stands for (C42 says what dtime2timeval yields) *)
Definition pview (single : bool) (p : pkt) : list (Z * Z * dgram) :=
  match dtime2timeval (dbl_of_bits (p_time p)), view single p with
  | Some (Tm s u), Some g => [(s, u, g)]
  | _, _ => []
  end.
Definition aview (p : pkt) : adrec :=
  mkAd (is_v6 (s_fam (p_raddr p))) (s_ip (p_raddr p)) (s_port (p_raddr p)) (p_time p) (p_data p).

Definition pkt_of (o : op) : pkt := match o with Pkt p _ _ => p end.
Definition pkts (ops : list op) : list pkt := map pkt_of ops.
(** The answers of the kernel *)
Definition answers (ops : list op) (w : wres) : list wres :=
  flat_map (fun o => match o with Pkt _ w1 w2 => [w1; w2] end) ops ++ [w].
Definition all_written (ws : list wres) : Prop := Forall (fun w => w = WAll) ws.
Definition none_short (ws : list wres) : Prop := Forall (fun w => w = WAll \/ w = WErr) ws.

(** Real packets: addresses of the right size, 16 bit ports, at most 8192 bytes, a time before 2106 *)
Definition wf_sa (a : sa) : Prop := bytes (s_ip a) /\ length (s_ip a) = alen (s_fam a) /\ 0 <= s_port a < 65536.
Definition wf_pkt (p : pkt) : Prop :=
  wf_sa (p_raddr p) /\ bytes (p_laddr p) /\ length (p_laddr p) = alen (s_fam (p_raddr p)) /\ 0 <= p_lport p < 65536 /\
  wf_sa (p_oaddr p) /\ (forall a, p_orem p = Some a -> wf_sa a /\ s_fam a = s_fam (p_oaddr p)) /\
  (forall a, p_l4r p = Some a -> bytes a /\ length a = alen (s_fam (p_raddr p))) /\
  bytes (p_data p) /\ len (p_data p) <= 8192 /\
  0 <= p_time p < 9218868437227405312 /\ d_sec (dbl_of_bits (p_time p)) < 4294967295.
(** The two legs of the call use the same version of IP *)
Definition same_ip (p : pkt) : Prop := s_fam (p_oaddr p) = s_fam (p_raddr p).

(** The checksums of a frame, by the standard test: the header of IPv4, and UDP with the pseudo header *)
Definition sums_ok (fr : list Z) : Prop :=
  let ip := skipn 14 fr in
  be_num (sub fr 12 2) = 2048 /\ verifies (sub ip 0 20) /\
    verifies (pseudo4 (sub ip 12 4) (sub ip 16 4) (be_num (sub (skipn 20 ip) 4 2)) ++ skipn 20 ip) \/
  be_num (sub fr 12 2) = 34525 /\
    verifies (pseudo6 (sub ip 8 16) (sub ip 24 16) (be_num (sub (skipn 40 ip) 4 2)) ++ skipn 40 ip).
