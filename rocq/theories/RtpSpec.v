(** RTP packets as in RFC 3550, section 5.1 and 5.3.1: an abstract packet and its encoding. *)
From Verif Require Import Base RtpModel.

Definition byte (b : Z) : Prop := 0 <= b < 256.
Definition be16 (v : Z) : list Z := [v / 256; v mod 256].
Definition be32 (v : Z) : list Z := be16 (v / 65536) ++ be16 (v mod 65536).

Record rtp_pkt := mkRtp {
  r_marker : Z; r_pt : Z; r_seq : Z; r_ts : Z; r_ssrc : Z;
  r_csrc : list Z;                    (* CSRC list, as bytes: 4 per entry *)
  r_ext : option (Z * list Z);        (* profile-defined id, extension words as bytes *)
  r_payload : list Z;
  r_pad : list Z }.                   (* padding octets, empty when there is no padding *)

Definition wf (r : rtp_pkt) : Prop :=
  0 <= r_marker r < 2 /\ 0 <= r_pt r < 128 /\ 0 <= r_seq r < 65536 /\
  0 <= r_ts r < 4294967296 /\ 0 <= r_ssrc r < 4294967296 /\
  (exists cc, Z.of_nat (length (r_csrc r)) = 4 * cc /\ 0 <= cc < 16) /\
  match r_ext r with
  | None => True
  | Some (id, ws) => 0 <= id < 65536 /\ exists n, Z.of_nat (length ws) = 4 * n /\ 0 <= n < 65536
  end /\
  (* the last padding octet tells how many there are *)
  (r_pad r = [] \/ last (r_pad r) 0 = Z.of_nat (length (r_pad r)) /\ 0 < Z.of_nat (length (r_pad r)) < 256).

Definition flag (b : bool) : Z := if b then 1 else 0.
Definition has_ext (r : rtp_pkt) : bool := match r_ext r with None => false | Some _ => true end.
Definition has_pad (r : rtp_pkt) : bool := match r_pad r with [] => false | _ => true end.

Definition hdr_of (r : rtp_pkt) : list Z :=
  [2 * 64 + flag (has_pad r) * 32 + flag (has_ext r) * 16 + Z.of_nat (length (r_csrc r)) / 4;
   r_marker r * 128 + r_pt r] ++ be16 (r_seq r) ++ be32 (r_ts r) ++ be32 (r_ssrc r).

Definition ext_of (r : rtp_pkt) : list Z :=
  match r_ext r with
  | None => []
  | Some (id, ws) => be16 id ++ be16 (Z.of_nat (length ws) / 4) ++ ws
  end.

Definition encode (r : rtp_pkt) : list Z :=
  hdr_of r ++ r_csrc r ++ ext_of r ++ r_payload r ++ r_pad r.

(** G.723.1 payloads: frames whose first two bits give their length; the last may be cut. *)
Inductive g723_frames : list Z -> Z -> Prop :=
| g723_end : g723_frames [] 0
| g723_frame : forall ch l len n,
    (ch mod 4 = 0 /\ len = 24 \/ ch mod 4 = 1 /\ len = 20 \/ ch mod 4 = 2 /\ len = 4) ->
    g723_frames (skipn (Z.to_nat len) (ch :: l)) n -> g723_frames (ch :: l) (n + 1).

(** Number of audio samples in a non-empty payload, -1 when unknown. *)
Definition samples_of (pt : Z) (pl : list Z) (n : Z) : Prop :=
  let len := Z.of_nat (length pl) in
  if (pt =? 0) || (pt =? 8) || (pt =? 9) then n = len             (* PCMU, PCMA, G722: byte count *)
  else if pt =? 18 then n = 80 * ((len + 9) / 10)                 (* G.729: 10 byte frames, last may be SID *)
  else if pt =? 3 then n = 160 * (len / 33)                       (* GSM: 33 byte frames *)
  else if pt =? 4 then (exists f, g723_frames pl f /\ n = 240 * f) \/
                       ((forall f, ~ g723_frames pl f) /\ n = -1)
  else n = -1.

(** The description [i] of a datagram is that of packet [r]. *)
Definition describes (r : rtp_pkt) (i : rinfo) : Prop :=
  ri_data_offset i = Z.of_nat (length (hdr_of r ++ r_csrc r ++ ext_of r)) /\
  ri_data_size i = Z.of_nat (length (r_payload r)) /\
  ri_ts i = r_ts r /\ ri_seq i = r_seq r /\ ri_ssrc i = r_ssrc r /\ ri_pt i = r_pt r /\
  (if r_payload r then ri_nsamples i = -1 else samples_of (r_pt r) (r_payload r) (ri_nsamples i)) /\
  (ri_appendable i = 0 <-> r_pt r = 18 /\ Z.of_nat (length (r_payload r)) mod 10 <> 0) /\
  (ri_appendable i = 0 \/ ri_appendable i = 1).

(** What RFC 5761 calls an RTCP packet, what RFC 5764 calls a DTLS record, and what RFC 8489 calls a STUN message, as
    far as the first bytes tell. *)
Definition looks_rtcp (d : list Z) : Prop := exists v t r, d = v :: t :: r /\ v / 64 = 2 /\ 200 <= t <= 213.
Definition looks_dtls (d : list Z) : Prop := (13 <= length d)%nat /\ exists v r, d = v :: r /\ 20 <= v <= 63.
Definition looks_stun (d : list Z) : Prop := (20 <= length d)%nat /\ exists a b c e r, d = a :: b :: c :: e :: 0x21 :: 0x12 :: 0xa4 :: 0x42 :: r.
