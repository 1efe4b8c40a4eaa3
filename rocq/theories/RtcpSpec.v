(** What an RTCP packet is (RFC 3550, section 6) and what a JSON text is (RFC 8259), without the
    program. *)
From Verif Require Import Base Str StrSpec.

(** ** RTCP *)

(** A reception report block. [b_lost] is signed. *)
Record block := mkBlock { b_source : Z; b_fraction : Z; b_lost : Z; b_seq : Z; b_jitter : Z; b_lsr : Z; b_dlsr : Z }.

(** The sender information: NTP time stamp (two halves), RTP time stamp, packets, octets. *)
Record sender := mkSender { i_ntp : Z; i_frac : Z; i_rtp : Z; i_packets : Z; i_octets : Z }.

(** A packet: a report ([Some] information: a sender report) or something else, of the given type. *)
Inductive item := Report (ssrc : Z) (info : option sender) (bs : list block) | Other (pt : Z).

(** Network byte order in 2, 3 and 4 bytes. *)
Definition n16 (x : Z) : list Z := [x / 256 mod 256; x mod 256].
Definition n24 (x : Z) : list Z := [x / 65536 mod 256; x / 256 mod 256; x mod 256].
Definition n32 (x : Z) : list Z := [x / 16777216 mod 256; x / 65536 mod 256; x / 256 mod 256; x mod 256].

Definition byte (x : Z) : Prop := 0 <= x < 256.
Definition word (x : Z) : Prop := 0 <= x < 4294967296.
Definition block_ok (b : block) : Prop :=
  word (b_source b) /\ byte (b_fraction b) /\ -8388608 <= b_lost b < 8388608 /\ word (b_seq b) /\
  word (b_jitter b) /\ word (b_lsr b) /\ word (b_dlsr b).
Definition sender_ok (i : sender) : Prop :=
  word (i_ntp i) /\ word (i_frac i) /\ word (i_rtp i) /\ word (i_packets i) /\ word (i_octets i).

Definition wire_block (b : block) : list Z :=
  n32 (b_source b) ++ [b_fraction b] ++ n24 (b_lost b) ++ n32 (b_seq b) ++ n32 (b_jitter b) ++ n32 (b_lsr b) ++ n32 (b_dlsr b).
Definition wire_sender (i : sender) : list Z :=
  n32 (i_ntp i) ++ n32 (i_frac i) ++ n32 (i_rtp i) ++ n32 (i_packets i) ++ n32 (i_octets i).

(** The four bytes of the header (version and padding bit [vp], count, type), the length in words
    without the first. *)
Definition header (vp count pt : Z) (total : nat) : list Z :=
  [vp * 32 + count; pt] ++ n16 (Z.of_nat total / 4 - 1).

(** [bytes] is the packet [it]: the header, whose length field is the length of [bytes] in words
    less one; the body; [ext] are profile specific extensions or padding. *)
Inductive wire : Z -> list Z -> item -> Prop :=
| w_report v p ssrc info bs ext bytes :
    0 <= v < 4 -> 0 <= p < 2 -> word ssrc -> match info with Some i => sender_ok i | None => True end ->
    Forall block_ok bs -> Forall byte ext -> (length bs < 32)%nat -> (length bytes <= 4 * Pos.to_nat 65536)%nat ->
    Nat.divide 4 (length bytes) ->
    bytes = header (v * 2 + p) (Z.of_nat (length bs)) (match info with Some _ => 200 | None => 201 end) (length bytes) ++
            n32 ssrc ++ match info with Some i => wire_sender i | None => [] end ++ concat (map wire_block bs) ++ ext ->
    wire v bytes (Report ssrc info bs)
| w_other v p count pt ext bytes :
    0 <= v < 4 -> 0 <= p < 2 -> 0 <= count < 32 -> byte pt -> pt <> 200 -> pt <> 201 -> Forall byte ext ->
    (length bytes <= 4 * Pos.to_nat 65536)%nat -> Nat.divide 4 (length bytes) ->
    bytes = header (v * 2 + p) count pt (length bytes) ++ ext ->
    wire v bytes (Other pt).

(** A compound packet: packets one after another, at least one; version 2. (Like the program,
    the versions of packets after the first are not looked at.) *)
Inductive wires : list Z -> list item -> Prop :=
| ws_nil : wires [] []
| ws_cons v bytes it rest its : wire v bytes it -> wires rest its -> wires (bytes ++ rest) (it :: its).
Definition compound (buf : list Z) (its : list item) : Prop :=
  exists bytes it rest its', buf = bytes ++ rest /\ its = it :: its' /\ wire 2 bytes it /\ wires rest its'.

(** ** JSON *)

Inductive json := JNum (z : Z) | JObj (l : list (list Z * json)) | JArr (l : list json).

Definition space (c : Z) : Prop := c = 32 \/ c = 10 \/ c = 13 \/ c = 9.
(** Characters of a string that need no escape. *)
Definition plain (c : Z) : Prop := 32 <= c < 127 /\ c <> 34 /\ c <> 92.

(** [s] is a JSON text of the value; the inside of an object; the inside of an array. Members are
    in order of appearance. Only integers, objects and arrays, neither empty. *)
Inductive text : list Z -> json -> Prop :=
| t_space a s b v : Forall space a -> Forall space b -> text s v -> text (a ++ s ++ b) v
| t_num s z : dec z s -> text s (JNum z)
| t_obj s l : members s l -> text ([123] ++ s ++ [125]) (JObj l)
| t_arr s l : elements s l -> text ([91] ++ s ++ [93]) (JArr l)
with members : list Z -> list (list Z * json) -> Prop :=
| m_one a b name s v : Forall space a -> Forall space b -> Forall plain name -> text s v ->
    members (a ++ [34] ++ name ++ [34] ++ b ++ [58] ++ s) [(name, v)]
| m_more s l t m : members s l -> members t m -> members (s ++ [44] ++ t) (l ++ m)
with elements : list Z -> list json -> Prop :=
| e_one s v : text s v -> elements s [v]
| e_more s l t m : elements s l -> elements t m -> elements (s ++ [44] ++ t) (l ++ m).

(** ** The report as a value *)

Definition block_value (b : block) : json :=
  JObj [(B "source_ssrc", JNum (b_source b)); (B "fraction_lost", JNum (b_fraction b)); (B "packets_lost", JNum (b_lost b));
        (B "highest_seq_no", JNum (b_seq b)); (B "ia_jitter", JNum (b_jitter b)); (B "lsr", JNum (b_lsr b)); (B "dlsr", JNum (b_dlsr b))].
Definition sender_value (i : sender) : json :=
  JObj [(B "ntp_timestamp_sec", JNum (i_ntp i)); (B "ntp_timestamp_usec", JNum (i_frac i)); (B "rtp_timestamp", JNum (i_rtp i));
        (B "packets", JNum (i_packets i)); (B "octets", JNum (i_octets i))].
Definition report_value (ssrc : Z) (info : option sender) (bs : list block) : json :=
  JObj ([(B "ssrc", JNum ssrc)] ++
        match info with Some i => [(B "sender_information", sender_value i)] | None => [] end ++
        [(B "type", JNum match info with Some _ => 200 | None => 201 end)] ++
        match bs with [] => [] | _ => [(B "report_blocks", JArr (map block_value bs))] end ++
        [(B "report_count", JNum (Z.of_nat (length bs)))]).

(** [s] consists of the texts of the reports among the packets, in order, and nothing else. *)
Inductive reports : list item -> list Z -> Prop :=
| r_nil : reports [] []
| r_report ssrc info bs its d s : text d (report_value ssrc info bs) -> reports its s ->
    reports (Report ssrc info bs :: its) (d ++ s)
| r_other pt its s : reports its s -> reports (Other pt :: its) s.

(** The loss counts the program prints right, see DESIGN.md. *)
Definition lost_fits (b : block) : Prop := 0 <= b_lost b < 65536 \/ b_lost b = -1.
Definition lost_fit (it : item) : Prop := match it with Report _ _ bs => Forall lost_fits bs | Other _ => True end.

(** How the program prints a loss count: by the third byte from the right, which holds the sign in
    its highest bit, but in which the program takes the lowest one for it. *)
Definition printed_loss (z : Z) : Z :=
  let top := z / 65536 mod 256 in
  if Z.odd top then -1 else top / 2 * 65536 + z mod 65536.

(** The same packet with the loss counts replaced. *)
Definition relost (f : Z -> Z) (it : item) : item :=
  match it with
  | Report ssrc info bs => Report ssrc info (map (fun b => mkBlock (b_source b) (b_fraction b) (f (b_lost b)) (b_seq b) (b_jitter b) (b_lsr b) (b_dlsr b)) bs)
  | Other pt => Other pt
  end.
