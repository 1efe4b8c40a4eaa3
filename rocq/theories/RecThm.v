(** C38 and C35: recordings. *)
From Verif Require Import Base CksumModel CksumSpec CksumProof TimeModel RecModel RecSpec RecProof.

(** A pcap recording. The buffer never overflows, whatever the kernel answers. When every write is complete, a strict pcap
    reader finds after the close exactly the packets, in order, with their time, addresses, ports and payload. When writes
    are complete or fail, it finds the first k of them. Missing: RTCP in a common recording when the two legs use different
    versions of IP, and short writes (both false, see below). *)
Theorem pcap_recording_partial : forall single odd ops w,
  Forall wf_pkt (pkts ops) -> Forall (fun p => single && p_rtcp p = true -> same_ip p) (pkts ops) ->
  exists c, session LOCAL_PCAP single odd ops w = Ok c /\
    (all_written (answers ops w) -> parse_pcap (r_file c) = Some (flat_map (pview single) (pkts ops))) /\
    (none_short (answers ops w) -> exists k, parse_pcap (r_file c) = Some (flat_map (pview single) (firstn k (pkts ops)))).
Proof.
  intros single odd ops w W S.
  assert (G : Forall (good LOCAL_PCAP single) (pkts ops)).
  { rewrite Forall_forall in *. intros p Hp. split; auto. }
  destruct (session_ok LOCAL_PCAP single odd ops w) as (c & E & K & A); [discriminate| |].
  { unfold op_ok. rewrite Forall_forall in *. intros o Ho. apply G. apply in_map. assumption. }
  exists c. split; [assumption|]. split.
  - intros N. rewrite (A N). apply parse_file_pcap. assumption.
  - intros N. destruct (K N) as [k F]. exists k. rewrite F. apply parse_file_pcap.
    rewrite Forall_forall in *. intros p Hp. apply G. rewrite <- (firstn_skipn k). apply in_app_iff. auto.
Qed.
Print Assumptions pcap_recording_partial.

(** Separate recordings of RTP and RTCP are not affected by different versions of IP. *)
Theorem pcap_recording_separate : forall odd ops w, Forall wf_pkt (pkts ops) ->
  exists c, session LOCAL_PCAP false odd ops w = Ok c /\
    (all_written (answers ops w) -> parse_pcap (r_file c) = Some (flat_map (pview false) (pkts ops))).
Proof.
  intros odd ops w W. destruct (pcap_recording_partial false odd ops w W) as (c & E & A & _); [|eauto].
  apply Forall_forall. cbn. discriminate.
Qed.
Print Assumptions pcap_recording_separate.

(** The older format. *)
Theorem adhoc_recording : forall single odd ops w, Forall wf_pkt (pkts ops) ->
  exists c, session LOCAL_PKT single odd ops w = Ok c /\
    (all_written (answers ops w) -> parse_adhoc (length (r_file c)) (r_file c) = Some (map aview (pkts ops))) /\
    (none_short (answers ops w) -> exists k, parse_adhoc (length (r_file c)) (r_file c) = Some (map aview (firstn k (pkts ops)))).
Proof.
  intros single odd ops w W.
  assert (G : Forall (good LOCAL_PKT single) (pkts ops)).
  { rewrite Forall_forall in *. intros p Hp. split; [auto|discriminate]. }
  destruct (session_ok LOCAL_PKT single odd ops w) as (c & E & K & A); [discriminate| |].
  { unfold op_ok. rewrite Forall_forall in *. intros o Ho. apply G. apply in_map. assumption. }
  exists c. split; [assumption|]. cbn [file_hdr app] in *. split.
  - intros N. rewrite (A N). apply parse_file_adhoc; [assumption|lia].
  - intros N. destruct (K N) as [k F]. exists k. rewrite F. apply parse_file_adhoc; [|lia].
    rewrite Forall_forall in *. intros p Hp. apply G. rewrite <- (firstn_skipn k). apply in_app_iff. auto.
Qed.
Print Assumptions adhoc_recording.

(** Copying to a remote host: one datagram per packet, with its payload, in order. *)
Theorem remote_recording : forall single odd ops w,
  exists c, session REMOTE_RTP single odd ops w = Ok c /\ r_sent c = map p_data (pkts ops).
Proof.
  intros single odd ops w. unfold session. destruct (remote_run single odd ops (ropen REMOTE_RTP) eq_refl) as (c & E & S).
  rewrite E. eexists. split; [reflexivity|]. cbn [rclose]. rewrite S. reflexivity.
Qed.
Print Assumptions remote_recording.

(** C35: the checksums of every recorded frame pass the test, with even and odd payloads, at every position in the buffer. *)
Theorem recorded_checksums_verify : forall single odd p h,
  wf_pkt p -> (single && p_rtcp p = true -> same_ip p) ->
  pcap_hdr odd (single && p_rtcp p) p = Hdr h -> sums_ok (skipn 16 h ++ p_data p).
Proof.
  intros single odd p h W S E. pose proof (pcap_hdr_ok single p W S) as H. destruct (view single p) as [g|].
  - destruct H as (h' & s & u & H1 & _ & H2 & _). rewrite H1 in E. injection E as <-. exact (frame_sums _ _ H2).
  - rewrite H in E. discriminate.
Qed.
Print Assumptions recorded_checksums_verify.

(** *** Examples *)
Definition a4 (x port : Z) : sa := mkSa V4 [10; 0; 0; x] port.
Definition a6 (x port : Z) : sa := mkSa V6 [32; 1; 13; 184; 0; 0; 0; 0; 0; 0; 0; 0; 0; 0; 0; x] port.
(** 1e9 + 0.5 seconds *)
Definition T0 : Z := 4741671816370585600.
Definition rtp4 (n : nat) : pkt :=
  mkPkt (a4 1 5000) [0; 0; 0; 0] 35000 (a4 3 35002) (Some (a4 2 6000)) false T0 7 (Some [192; 168; 1; 1]) (repeat 255 n).
Definition rtcp6 (n : nat) : pkt :=
  mkPkt (a6 1 5001) (s_ip (a6 9 0)) 35001 (a6 3 35003) (Some (a6 2 6001)) true T0 8 None (repeat 200 n).
(** RTCP of a call between IPv4 and IPv6 *)
Definition bridged (n : nat) : pkt :=
  mkPkt (a4 1 5001) [10; 0; 0; 9] 35001 (a6 3 35003) (Some (a6 2 6001)) true T0 8 None (repeat 200 n).


Definition big : nat := Z.to_nat 3970.
Local Opaque big.
(** Odd and even payloads, a packet too large for the buffer, an unknown local address, both families: all read back. *)
Definition ops_ex : list op :=
  [Pkt (rtp4 3) WAll WAll; Pkt (rtcp6 8) WAll WAll; Pkt (rtp4 (big + big)) WAll WAll; Pkt (rtp4 172) WAll WAll].
Example recording_ex : Forall wf_pkt (pkts ops_ex) /\ Forall (fun p => true && p_rtcp p = true -> same_ip p) (pkts ops_ex) /\
  all_written (answers ops_ex WAll) /\
  map (fun v => let '(s, u, g) := v in (s, u, g_v6 g, g_dst g, g_sport g, length (g_data g))) (flat_map (pview true) (pkts ops_ex)) =
  [(1000000000, 500000, false, [192; 168; 1; 1], 5000, 3%nat);
   (1000000000, 500000, true, s_ip (a6 2 0), 35003, 8%nat);
   (1000000000, 500000, false, [192; 168; 1; 1], 5000, (big + big)%nat);
   (1000000000, 500000, false, [192; 168; 1; 1], 5000, 172%nat)].
Proof.
  split; [apply wfs_ok; vm_compute; reflexivity|]. split; [apply Forall_forall; intros p [<-|[<-|[<-|[<-|[]]]]]; cbn; intros; try discriminate; reflexivity|].
  split; [repeat constructor|]. vm_compute. reflexivity.
Qed.

(** A failing write: the first two packets are in the file, the rest is lost. *)
Example recording_error_ex :
  let ops := [Pkt (rtp4 3) WAll WAll; Pkt (rtcp6 8) WAll WAll; Pkt (rtp4 (big + big)) WAll WErr; Pkt (rtp4 172) WAll WAll] in
  match session LOCAL_PCAP true false ops WAll with
  | Ok c => match parse_pcap (r_file c) with Some l => length l = 2%nat | None => False end
  | Overflow => False
  end.
Proof. vm_compute. reflexivity. Qed.

(** RTCP of a call between IPv4 and IPv6 in a common recording writes beyond the end of the buffer: the space reserved is
    that of the incoming packet's address family, the header that of the outgoing one. *)
Theorem bridged_overflow_refuted : exists ops,
  Forall wf_pkt (pkts ops) /\ all_written (answers ops WAll) /\ session LOCAL_PCAP true false ops WAll = Overflow.
Proof.
  exists [Pkt (rtp4 big) WAll WAll; Pkt (bridged 10) WAll WAll].
  split; [apply wfs_ok; vm_compute; reflexivity|]. split; [repeat constructor|]. vm_compute. reflexivity.
Qed.
Print Assumptions bridged_overflow_refuted.
(** With room in the buffer the recording cannot be read. *)
Theorem bridged_unreadable_refuted : exists ops c,
  Forall wf_pkt (pkts ops) /\ all_written (answers ops WAll) /\ session LOCAL_PCAP true false ops WAll = Ok c /\
  parse_pcap (r_file c) = None.
Proof.
  exists [Pkt (bridged 10) WAll WAll]. eexists.
  split; [apply wfs_ok; vm_compute; reflexivity|]. split; [repeat constructor|].
  split; [vm_compute; reflexivity|]. vm_compute. reflexivity.
Qed.
Print Assumptions bridged_unreadable_refuted.

(** A short write (a full disk) tears a record, and what follows cannot be read. *)
Theorem short_write_refuted : exists ops c,
  Forall wf_pkt (pkts ops) /\ session LOCAL_PCAP false false ops WAll = Ok c /\ parse_pcap (r_file c) = None.
Proof.
  exists [Pkt (rtp4 big) WAll WAll; Pkt (rtp4 big) (WShort 100) WAll]. eexists.
  split; [apply wfs_ok; vm_compute; reflexivity|].
  split; [vm_compute; reflexivity|]. vm_compute. reflexivity.
Qed.
Print Assumptions short_write_refuted.

(** A UDP checksum that comes out as zero is stored as zero, which over IPv6 means an invalid datagram (RFC 8200, 8.1: it
    must be stored as all ones). *)
Theorem zero_checksum_refuted : exists p h, wf_pkt p /\ pcap_hdr false false p = Hdr h /\ s_fam (p_raddr p) = V6 /\
  sub h 76 2 = [0; 0].
Proof.
  exists (mkPkt (a6 1 5001) (s_ip (a6 9 0)) 35001 (a6 3 35003) None false T0 8 None [8; 28]). eexists.
  split; [apply wfb_ok; vm_compute; reflexivity|]. split; [vm_compute; reflexivity|]. split; [reflexivity|]. vm_compute. reflexivity.
Qed.
Print Assumptions zero_checksum_refuted.
