(** What a recording contains, and what reading it should mean. *)
From Verif Require Import Base RtpModel AnaModel RecSpec LoadModel.
From Coq Require Import Sorting.

(** ** The formats *)

(** A pcap file: a header of 24 bytes, then records: time, length of the frame, original length, frame. *)
Definition pcap_header (net : Z) (h : list Z) : Prop :=
  length h = 24%nat /\ le_num (sub h 0 4) = 2712847316 /\ le_num (sub h 4 2) = 2 /\ le_num (sub h 6 2) = 4 /\ le_num (sub h 20 4) = net.
Inductive records : list Z -> list (Z * Z * list Z) -> Prop :=
| records_nil : records [] []
| records_cons h frame l rs : length h = 16%nat -> le_num (sub h 8 4) = len frame -> records l rs ->
    records (h ++ frame ++ l) ((le_num (sub h 0 4), le_num (sub h 4 4), frame) :: rs).
(** Link types: 1 is Ethernet (type of the contents at 12), 0 is a loopback device (family at 0). *)
Definition link_len (net : Z) : nat := if net =? 1 then 14%nat else 4%nat.
Definition inet (net : Z) (frame : list Z) : bool :=
  if net =? 1 then be_num (sub frame 12 2) =? 2048 else le_num (sub frame 0 4) =? 2.
(** The frame has room for the headers of IPv4 (20 bytes) and UDP (8 bytes); the limit is that of a signed 32 bit number. *)
Definition fits (net : Z) (r : Z * Z * list Z) : Prop := Z.of_nat (link_len net) + 28 <= len (snd r) < 2147483632.
(** Its datagrams: time in microseconds, data. *)
Definition datagrams (net : Z) (rs : list (Z * Z * list Z)) : list (option Z * list Z) :=
  flat_map (fun r => if inet net (snd r) then [(Some (fst (fst r) * 1000000 + snd (fst r)), skipn (link_len net + 28) (snd r))] else []) rs.

(** The older format: headers of 30 bytes with a time (a double) at 20 and the length of the packet at 28. *)
Inductive ad_records : list Z -> list (option Z * list Z) -> Prop :=
| ad_nil : ad_records [] []
| ad_cons h d l rs : length h = 30%nat -> le_num (sub h 28 2) = len d -> ad_records l rs ->
    ad_records (h ++ d ++ l) ((dtime (le_num (sub h 20 8)), d) :: rs).

(** Long enough for the fixed header of RTP *)
Definition long (r : option Z * list Z) : bool := 12 <=? len (snd r).
(** A file in one of the formats, and its datagrams; of the older format those shorter than 12 bytes are not looked at. *)
Inductive recording : list Z -> list (option Z * list Z) -> Prop :=
| rec_pcap net h l rs : net = 0 \/ net = 1 -> pcap_header net h -> records l rs -> Forall (fits net) rs ->
    recording (h ++ l) (datagrams net rs)
| rec_adhoc l rs : l <> [] -> le_num (sub l 0 4) <> 2712847316 -> ad_records l rs ->
    recording l (filter long rs).

(** ** What is loaded *)

(** The RTP packets among the datagrams *)
Definition rtp (ds : list (option Z * list Z)) : list lp :=
  flat_map (fun r => match parse_raw (snd r) with POk i => [mkLp (fst r) i (snd r)] | _ => [] end) ds.
(** Those with audio *)
Definition audio (ds : list (option Z * list Z)) : list lp := filter (fun x => 0 <? ri_nsamples (l_info x)) (rtp ds).
(** The accounting (C14) finds nothing wrong. *)
Definition stat_pkt (x : lp) : pkt := mkPkt (l_ssrc x) (l_seq x) (match l_data x with _ :: b :: _ => 128 <=? b | _ => false end) true.
Fixpoint steady (s : stat) (l : list lp) : Prop :=
  match l with [] => True | x :: l => snd (update s (stat_pkt x)) <> UPDATE_ERR /\ steady (fst (update s (stat_pkt x))) l end.

Definition of_ssrc (s : Z) (l : list lp) : list lp := filter (fun x => l_ssrc x =? s) l.
(** The packets of a source among the channels *)
Fixpoint session (ch : list chan) (s : Z) : list lp :=
  match ch with
  | [] => []
  | c :: ch => match c_pkts c with x :: _ => if l_ssrc x =? s then c_pkts c else session ch s | [] => session ch s end
  end.
(** Every channel has the packets of one source, no two the same. *)
Definition well_formed (ch : list chan) : Prop :=
  Forall (fun c => exists x l, c_pkts c = x :: l /\ Forall (fun y => l_ssrc y = l_ssrc x) l) ch /\
  NoDup (map (fun c => match c_pkts c with x :: _ => l_ssrc x | [] => -1 end) ch).
Definition total (ch : list chan) : Z := zsum (fun c => Z.of_nat (length (c_pkts c))) ch.

(** Of packets with the same number the first counts. *)
Fixpoint firsts (seen : list Z) (l : list lp) : list lp :=
  match l with
  | [] => []
  | x :: l => if existsb (Z.eqb (l_seq x)) seen then firsts seen l else x :: firsts (l_seq x :: seen) l
  end.
Definition by_seq (l : list lp) : Prop := StronglySorted (fun x y => l_seq x < l_seq y) l.
(** The timestamps go with the numbers, and neither wraps around. *)
Definition unwrapped (l : list lp) : Prop := forall x y, In x l -> In y l -> l_seq x < l_seq y -> l_ts x <= l_ts y.
(** Every packet follows the one before: another number, and a greater number or a greater timestamp. *)
Fixpoint in_order (l : list lp) : Prop :=
  match l with
  | x :: ((y :: _) as t) => l_seq x <> l_seq y /\ (l_ts x < l_ts y \/ l_seq x < l_seq y) /\ in_order t
  | _ => True
  end.
(** From which side the packets of a source are *)
Fixpoint side (ch : list chan) (s : Z) : option bool :=
  match ch with
  | [] => None
  | c :: ch => match c_pkts c with x :: _ => if l_ssrc x =? s then Some (c_answer c) else side ch s | [] => side ch s end
  end.

(** ** What the recorder wrote, as the strict readers of C38 see it *)

Definition v4 (r : Z * Z * dgram) : bool := negb (g_v6 (snd r)).
Definition as_data (r : Z * Z * dgram) : option Z * list Z := (Some (fst (fst r) * 1000000 + snd (fst r)), g_data (snd r)).
Definition ad_data (r : adrec) : option Z * list Z := (dtime (a_time r), a_data r).

(** The file does not end in the last 28 bytes of a page. *)
Definition page_end (f : list Z) : Z := (size f + 4095) / 4096 * 4096.
Definition roomy (f : list Z) : Prop := size f + 29 <= page_end f.
