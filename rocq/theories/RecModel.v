(** Model of session recording: src/rtpp_record.c:101-125 (the channel), 256-275 (file header), 293-311 (flush_rbuf),
    330-357 (ad hoc header), 361-549 (pcap header), 551-570 (header size), 572-670 (one packet), 683-696 (close), for a
    little-endian host and PCAP_FORMAT = DLT_EN10MB (src/rtpp_defines.h:49). Layouts: src/rtpp_record_private.h:40-122,
    src/rtpp_record_adhoc.h:33-55.
    Simplified: the kernel's answers (result of every write, of local4remote) are inputs; a write error leaves the file as
    it was; the static ip_id counter, shared by all recorders, is an input of each packet; the arrival time is given as the
    64 bit pattern of the double ARRIVAL_TIME yields; the mutex around each packet (678-680) is a step being atomic; path
    names, spooling (rename at close) and the log are left out. *)
From Verif Require Import Base TimeModel CksumModel.

Inductive fam := V4 | V6.
(** struct sockaddr: family, address bytes as in memory, port *)
Record sa := mkSa { s_fam : fam; s_ip : list Z; s_port : Z }.
Definition is_v4 (f : fam) : bool := match f with V4 => true | V6 => false end.
Definition alen (f : fam) : nat := match f with V4 => 4%nat | V6 => 16%nat end.
Definition zeros (n : nat) : list Z := repeat 0 n.
(** ishostnull, src/rtpp_network.c:76-97 *)
Definition ishostnull (a : sa) : bool := forallb (fun b => b =? 0) (s_ip a).

Inductive rmode := LOCAL_PKT | REMOTE_RTP | LOCAL_PCAP.

(** A packet with what the recorder reads besides: raddr/laddr/lport of the packet, local and remote address of the
    outgoing stream, whether that stream is RTCP, the time, local4remote's answer. *)
Record pkt := mkPkt {
  p_raddr : sa; p_laddr : list Z; p_lport : Z;
  p_oaddr : sa; p_orem : option sa; p_rtcp : bool;
  p_time : Z; p_ipid : Z; p_l4r : option (list Z); p_data : list Z }.

(** The double with a given 64 bit pattern (positive and finite) *)
Definition dbl_of_bits (b : Z) : dbl :=
  let m := b mod 4503599627370496 in
  let e := b / 4503599627370496 mod 2048 in
  if e =? 0 then mkD m (-1074) else mkD (m + 4503599627370496) (e - 1075).

Definition le32 (x : Z) : list Z := [x mod 256; x / 256 mod 256; x / 65536 mod 256; x / 16777216 mod 256].
Definition be32 (x : Z) : list Z := [x / 16777216 mod 256; x / 65536 mod 256; x / 256 mod 256; x mod 256].
Definition le64 (x : Z) : list Z := le32 (x mod 4294967296) ++ le32 (x / 4294967296).
Definition plen (p : pkt) : Z := Z.of_nat (length (p_data p)).

(** prepare_pkt_hdr_adhoc, lines 330-357: a union of 20 bytes, the double, the length *)
Definition adhoc_hdr (p : pkt) : list Z :=
  let r := p_raddr p in
  match s_fam r with
  | V4 => st16 2 ++ be16 (s_port r) ++ s_ip r ++ zeros 12
  | V6 => st16 10 ++ be16 (s_port r) ++ s_ip r
  end ++ le64 (p_time p) ++ st16 (u16 (plen p)).

(** fake_ether_addr, lines 361-386 *)
Definition fake_ether (f : fam) (ip : list Z) : list Z :=
  match f with
  | V4 => [0; 0] ++ ip
  | V6 => map (fun i => fold_left (fun x j => Z.lxor x (nth (i + 6 * j) ip 0)) [1; 2]%nat (nth i ip 0)) (seq 0 6)
  end.

(** get_hdr_size, lines 551-570: 16 (record header) + 14 (Ethernet) + 20 or 40 (IP) + 8 (UDP) *)
Definition get_hdr_size (f : fam) : nat := match f with V4 => 58%nat | V6 => 78%nat end.

(** Lines 503-546, given the final addresses; [None] is a signed overflow in rtpp_in_cksum (odd: is its argument's
    address odd) *)
Definition ip_hdr (odd : bool) (f : fam) (src dst : list Z) (ipid n : Z) : option (list Z) :=
  match f with
  | V4 =>
      let hd := [69; 0] ++ be16 (28 + n) ++ be16 ipid ++ [0; 0] ++ [127; 17] in
      match in_cksum odd (hd ++ [0; 0] ++ src ++ dst) with
      | Some c => Some (hd ++ st16 c ++ src ++ dst)
      | None => None
      end
  | V6 => Some ([96; 0; 0; 0] ++ be16 (8 + n) ++ [17; 64] ++ src ++ dst)
  end.
Definition udp_hdr (f : fam) (src dst : list Z) (sport dport : Z) (data : list Z) : list Z :=
  let ulen := 8 + Z.of_nat (length data) in
  let w := match f with
           | V4 => ck_update (be16 ulen) (ck_update [0; 17] (ck_update dst (ck_update src 0)))
           | V6 => ck_update [0; 0; 0; 17] (ck_update (be32 ulen) (ck_update dst (ck_update src 0)))
           end in
  let w := ck_update data (ck_update (be16 ulen) (ck_update (be16 dport) (ck_update (be16 sport) w))) in
  be16 sport ++ be16 dport ++ be16 ulen ++ st16 (ck_fin w).

Inductive hres := Hdr (l : list Z) | HFail | HUB.
(** prepare_pkt_hdr_pcap, lines 389-549. [HFail]: local4remote failed. A destination of another family than the source
    would be read through the wrong structure: [HUB]; so is an arrival time whose seconds do not fit a time_t. *)
Definition pcap_hdr (odd face : bool) (p : pkt) : hres :=
  let daddr := match p_orem p with Some a => a | None => mkSa (s_fam (p_oaddr p)) (zeros (alen (s_fam (p_oaddr p)))) 0 end in
  let src := if face then p_oaddr p else p_raddr p in
  let dst := if face then daddr else mkSa (s_fam (p_raddr p)) (p_laddr p) (p_lport p) in
  let f := s_fam src in
  match dtime2timeval (dbl_of_bits (p_time p)) with
  | None => HUB
  | Some (Tm sec usec) =>
    let incl := Z.of_nat (get_hdr_size f) - 16 + plen p in
    let phd := le32 (u32 sec) ++ le32 (u32 usec) ++ le32 (u32 incl) ++ le32 (u32 incl) in
    let etype := match f with V4 => [8; 0] | V6 => [134; 221] end in
    let need_dst := negb face && ishostnull dst && negb (ishostnull src) in
    let need_src := face && ishostnull src && negb (ishostnull dst) in
    if (need_dst || need_src) && match p_l4r p with None => true | Some _ => false end then HFail
    else
      let tmp := match p_l4r p with Some a => a | None => [] end in
      let dip := if need_dst then tmp else s_ip dst in
      let sip := if need_src then tmp else s_ip src in
      if negb (Bool.eqb (is_v4 f) (is_v4 (s_fam dst))) then HUB
      else
        match ip_hdr odd f sip dip (p_ipid p) (plen p) with
        | None => HUB
        | Some ip => Hdr (phd ++ fake_ether f dip ++ fake_ether f sip ++ etype ++ ip ++
                          udp_hdr f sip dip (s_port src) (s_port dst) (p_data p))
        end
  end.

(** sizeof(rrc->rbuf), line 108 *)
Definition RBUF : nat := Z.to_nat 4096.
#[global] Opaque RBUF.

(** What write() and writev() answer: everything, only the first n bytes, or -1 *)
Inductive wres := WAll | WShort (n : nat) | WErr.

Record rrc := mkRrc {
  r_fd : bool;            (* fd != -1 *)
  r_rbuf : list Z; r_len : nat;
  r_file : list Z;        (* contents of the file *)
  r_sent : list (list Z)  (* datagrams sent, remote mode *) }.

(** write(fd, bs): [None] is the -1 case *)
Definition sys_write (file bs : list Z) (w : wres) : option (list Z) :=
  match w with
  | WAll => Some (file ++ bs)
  | WShort n => Some (file ++ firstn n bs)
  | WErr => None
  end.

(** flush_rbuf, lines 293-311; with fd = -1 the write fails *)
Definition flush_rbuf (c : rrc) (w : wres) : rrc * bool :=
  match (if r_fd c then sys_write (r_file c) (firstn (r_len c) (r_rbuf c)) w else None) with
  | Some f => (mkRrc (r_fd c) (r_rbuf c) 0 f (r_sent c), true)
  | None => (mkRrc false (r_rbuf c) (r_len c) (r_file c) (r_sent c), false)
  end.

Inductive res := Ok (c : rrc) | Overflow.

(** rtpp_record_write_locked, lines 572-670; [w1] answers the flush, [w2] the writev. [odd] is the parity of the addresses
    of rbuf and of the header on the stack. A header of 58 bytes where 78 are written leaves 20 indeterminate bytes,
    shown as -1 (on the stack) or what was in the buffer. *)
Definition write_locked (m : rmode) (single odd : bool) (c : rrc) (p : pkt) (w1 w2 : wres) : res :=
  if negb (r_fd c) then Ok c else
  match m with
  | REMOTE_RTP => Ok (mkRrc (r_fd c) (r_rbuf c) (r_len c) (r_file c) (r_sent c ++ [p_data p]))
  | _ =>
      let hsz := match m with LOCAL_PCAP => get_hdr_size (s_fam (p_raddr p)) | _ => 30%nat end in
      let face := single && p_rtcp p in
      let hdr := fun o => match m with LOCAL_PCAP => pcap_hdr o face p | _ => Hdr (adhoc_hdr p) end in
      let '(c, ok) := if (RBUF <? r_len c + hsz + length (p_data p))%nat && (0 <? r_len c)%nat
                      then flush_rbuf c w1 else (c, true) in
      if negb ok then Ok c else
      if (RBUF <? r_len c + hsz + length (p_data p))%nat then
        match hdr odd with
        | HUB => Overflow
        | HFail => Ok c
        | Hdr h =>
            match sys_write (r_file c) (firstn hsz (h ++ repeat (-1) (78 - length h)) ++ p_data p) w2 with
            | Some f => Ok (mkRrc (r_fd c) (r_rbuf c) (r_len c) f (r_sent c))
            | None => Ok (mkRrc false (r_rbuf c) (r_len c) (r_file c) (r_sent c))
            end
        end
      else
        match hdr (xorb odd (Nat.odd (r_len c))) with
        | HUB => Overflow
        | HFail => Ok c
        | Hdr h =>
            match store (r_rbuf c) (r_len c) h with
            | None => Overflow
            | Some b =>
                match store b (r_len c + hsz) (p_data p) with
                | None => Overflow
                | Some b' => Ok (mkRrc (r_fd c) b' (r_len c + hsz + length (p_data p)) (r_file c) (r_sent c))
                end
            end
        end
  end.

(** rtpp_record_ctor, lines 249-275: the file header, [None]: no recorder (short write or error) *)
Definition file_hdr (m : rmode) : list Z :=
  match m with
  | LOCAL_PCAP => le32 2712847316 ++ st16 2 ++ st16 4 ++ le32 0 ++ le32 0 ++ le32 65535 ++ le32 1
  | _ => []
  end.
Definition ropen (m : rmode) : rrc := mkRrc true (repeat 0 RBUF) 0 (file_hdr m) [].

Inductive op := Pkt (p : pkt) (w1 w2 : wres).
Fixpoint run (m : rmode) (single odd : bool) (c : rrc) (ops : list op) : res :=
  match ops with
  | [] => Ok c
  | Pkt p w1 w2 :: t =>
      match write_locked m single odd c p w1 w2 with Ok c' => run m single odd c' t | Overflow => Overflow end
  end.
(** rtpp_record_close, lines 689-696 *)
Definition rclose (m : rmode) (c : rrc) (w : wres) : rrc :=
  match m with
  | REMOTE_RTP => c
  | _ => if (0 <? r_len c)%nat then fst (flush_rbuf c w) else c
  end.
(** A recorder's life *)
Definition session (m : rmode) (single odd : bool) (ops : list op) (w : wres) : res :=
  match run m single odd (ropen m) ops with Ok c => Ok (rclose m c w) | Overflow => Overflow end.
