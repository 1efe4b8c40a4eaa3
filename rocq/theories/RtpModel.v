(** Model of the RTP parser, src/rtp.c, and the datagram classifiers, src/rtp_packet.c. *)
From Verif Require Import Base.

(** Checked read of byte [i] of the received datagram. [None]: outside the bytes received. *)
Definition rd (buf : list Z) (i : Z) : option Z :=
  if i <? 0 then None else nth_error buf (Z.to_nat i).
(** ntohs/ntohl of a field at offset [i]. *)
Definition rd16 (buf : list Z) (i : Z) : option Z :=
  match rd buf i, rd buf (i + 1) with Some a, Some b => Some (256 * a + b) | _, _ => None end.
Definition rd32 (buf : list Z) (i : Z) : option Z :=
  match rd16 buf i, rd16 buf (i + 2) with Some a, Some b => Some (65536 * a + b) | _, _ => None end.

(** struct rtp_info, src/rtp_info.h:32-41. [ri_pt] stands for the profile pointer
    [&rtp_profiles[pt]]: the table has 128 entries (src/rtp.c:44). Integers are unbounded here:
    a datagram has at most 8192 bytes (MAX_RPKT_LEN), so no int/size_t expression below wraps. *)
Record rinfo := mkRi { ri_data_size : Z; ri_data_offset : Z; ri_nsamples : Z; ri_ts : Z;
                       ri_seq : Z; ri_ssrc : Z; ri_appendable : Z; ri_pt : Z }.

(** Outcome of the parser; [POob] is a read outside the datagram. *)
Inductive pres := POob | PErr (code : Z) | POk (i : rinfo).

(** rtp_parser_err_t, src/rtp.h:115-126 *)
Definition PTOOSHRT := -1. Definition IHDRVER := -2. Definition PTOOSHRTXS := -3.
Definition PTOOSHRTXH := -4. Definition PTOOSHRTPS := -5. Definition PTOOSHRTP := -6.
Definition IPS := -7. Definition ISRTCP := -8.
(** RTP_NSAMPLES_UNKNOWN, src/rtp.h:71 *)
Definition NS_UNKNOWN := -1.

(** g723_len, src/rtp.c:66-86 *)
Definition g723_len (ch : Z) : Z :=
  match ch mod 4 with 2 => 4 | 0 => 24 | 1 => 20 | _ => NS_UNKNOWN end.

(** g723_samples, src/rtp.c:88-100, on [maxlen] bytes at offset [off]. Every round advances by at
    least 4, so [fuel = maxlen] rounds suffice; [None] is a read outside or lack of fuel. *)
Fixpoint g723_loop (fuel : nat) (buf : list Z) (off maxlen pos samples : Z) : option Z :=
  if pos <? maxlen then
    match fuel with
    | O => None
    | S f =>
        match rd buf (off + pos) with
        | None => None
        | Some ch =>
            let n := g723_len ch in
            if n =? NS_UNKNOWN then Some NS_UNKNOWN
            else g723_loop f buf off maxlen (pos + n) (samples + 240)
        end
    end
  else Some samples.
Definition g723_samples (buf : list Z) (off maxlen : Z) : option Z :=
  g723_loop (Z.to_nat maxlen) buf off maxlen 0 0.

(** rtp_calc_samples, src/rtp.c:102-126 *)
Definition calc_samples (pt nbytes : Z) (buf : list Z) (off : Z) : option Z :=
  match pt with
  | 0 | 8 => Some nbytes
  | 18 => Some (nbytes / 10 * 80 + (if nbytes mod 10 =? 0 then 0 else 80))
  | 3 => Some (160 * (nbytes / 33))
  | 4 => g723_samples buf off nbytes
  | 9 => Some nbytes
  | _ => Some NS_UNKNOWN
  end.

(** rtp_packet_parse_raw, src/rtp.c:280-344. The header bit fields (src/rtp.h:80-100) are the
    usual big-endian-on-the-wire RTP ones. *)
Definition parse_raw (buf : list Z) : pres :=
  let size := Z.of_nat (length buf) in
  if size <? 12 then PErr PTOOSHRT else
  match rd buf 0, rd buf 1 with
  | Some b0, Some b1 =>
      if negb (b0 / 64 =? 2) then PErr IHDRVER else
      let off0 := 12 + (b0 mod 16) * 4 in
      let xo := if (b0 / 16) mod 2 =? 0 then POk (mkRi 0 off0 0 0 0 0 0 0)
                else if size <? off0 + 4 then PErr PTOOSHRTXS
                else match rd16 buf (off0 + 2) with
                     | None => POob
                     | Some l => POk (mkRi 0 (off0 + 4 + l * 4) 0 0 0 0 0 0)
                     end in
      match xo with
      | POob => POob
      | PErr e => PErr e
      | POk r =>
          let off := ri_data_offset r in
          if size <? off then PErr PTOOSHRTXH else
          let po := if (b0 / 32) mod 2 =? 0 then POk (mkRi 0 0 0 0 0 0 0 0)
                    else if off =? size then PErr PTOOSHRTPS
                    else match rd buf (size - 1) with
                         | None => POob
                         | Some p => if p =? 0 then PErr IPS else POk (mkRi p 0 0 0 0 0 0 0)
                         end in
          match po with
          | POob => POob
          | PErr e => PErr e
          | POk rp =>
              let pad := ri_data_size rp in
              if size <? off + pad then PErr PTOOSHRTP else
              let dsize := size - off - pad in
              match rd32 buf 4, rd16 buf 2, rd32 buf 8 with
              | Some ts, Some seq, Some ssrc =>
                  let pt := b1 mod 128 in
                  if dsize =? 0 then POk (mkRi dsize off NS_UNKNOWN ts seq ssrc 1 pt)
                  else match calc_samples pt dsize buf off with
                       | None => POob
                       | Some ns =>
                           POk (mkRi dsize off ns ts seq ssrc
                                     (if (pt =? 18) && negb (dsize mod 10 =? 0) then 0 else 1) pt)
                       end
              | _, _, _ => POob
              end
          end
      end
  | _, _ => POob
  end.

(** Outcome of a boolean test on a datagram; [None] is a read outside. *)
(** rtp_packet_is_rtcp, src/rtp_packet.c:163-177 *)
Definition is_rtcp (buf : list Z) : option bool :=
  if Z.of_nat (length buf) <? 2 then Some false else
  match rd buf 0, rd buf 1 with
  | Some b0, Some b1 => Some ((b0 / 64 mod 4 =? 2) && (200 <=? b1) && (b1 <=? 213))
  | _, _ => None
  end.
(** rtp_packet_is_stun, src/rtp_packet.c:187-196 (STUN_MAGIC 0x2112A442) *)
Definition is_stun (buf : list Z) : option bool :=
  if Z.of_nat (length buf) <? 20 then Some false else
  match rd32 buf 4 with
  | Some m => Some (m =? 554869826)
  | None => None
  end.
(** rtp_packet_is_dtls, src/rtp_packet.c:204-215 *)
Definition is_dtls (buf : list Z) : option bool :=
  if Z.of_nat (length buf) <? 13 then Some false else
  match rd buf 0 with
  | Some b => Some ((19 <? b) && (b <? 64))
  | None => None
  end.

(** rtp_packet_parse, src/rtp_packet.c:137-158, for a packet not parsed before. *)
Definition packet_parse (buf : list Z) : pres :=
  match is_rtcp buf with
  | None => POob
  | Some true => PErr ISRTCP
  | Some false => parse_raw buf
  end.
