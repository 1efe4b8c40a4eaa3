(** C01 (RTP parser) and C02 (datagram classes). *)
From Verif Require Import Base RtpModel RtpSpec RtpProof.

(** C01. The parser never reads outside the bytes received. *)
Theorem rtp_parse_memory_safe : forall d, Forall byte d -> parse_raw d <> POob /\ packet_parse d <> POob.
Proof.
  intros d Hb. split; [exact (parse_no_oob d Hb)|].
  unfold packet_parse. destruct (is_rtcp_total d) as ([] & ->); [discriminate|exact (parse_no_oob d Hb)].
Qed.
Print Assumptions rtp_parse_memory_safe.

(** C01. A datagram is accepted exactly when it is the RFC 3550 encoding of some packet, and the
    description reported (payload range, sequence number, timestamp, SSRC, payload type, sample
    count, appendable flag) is that of the packet. *)
Theorem rtp_parse_exact :
  forall d, Forall byte d ->
  (forall i, parse_raw d = POk i -> exists r, wf r /\ encode r = d /\ describes r i) /\
  (forall r, wf r -> encode r = d -> exists i, parse_raw d = POk i /\ describes r i).
Proof.
  intros d Hb. split; [intros i; exact (parse_iff d i Hb)|].
  intros r Hw He. rewrite <- He. exact (encode_parses r Hw).
Qed.
Print Assumptions rtp_parse_exact.

(** C01/C02. The packet level parser accepts exactly the RTP encodings that do not look like RTCP
    (version 2, second byte 200..213). *)
Theorem packet_parse_exact :
  forall d, Forall byte d -> forall i,
  (packet_parse d = POk i <-> is_rtcp d = Some false /\ parse_raw d = POk i).
Proof. intros d Hb i. exact (packet_parse_iff d i Hb). Qed.
Print Assumptions packet_parse_exact.

Example rtp_parse_ex :
  let r := mkRtp 1 18 65535 4294967295 305419896 [1;2;3;4;5;6;7;8] (Some (48862, [9;9;9;9]))
                 [1;2;3;4;5;6;7;8;9;10;11;12] [0;0;3] in
  wf r /\ Forall byte (encode r) /\
  parse_raw (encode r) = POk (mkRi 12 28 160 4294967295 65535 305419896 0 18).
Proof.
  split; [|split].
  - unfold wf; cbn. repeat (split; [lia|]). split; [exists 2; cbn; lia|]. split; [|right; split; [reflexivity|lia]].
    split; [lia|]. exists 1. cbn. lia.
  - unfold byte. repeat constructor; try (vm_compute; discriminate).
  - vm_compute. reflexivity.
Qed.

(** C02. The three classifiers never read outside the datagram; RTCP and DTLS are disjoint; RTP
    and DTLS are disjoint; everything classified as RTCP is refused by the RTP parser. *)
Theorem datagram_classes_partial :
  forall d, Forall byte d ->
  (exists a b c, is_rtcp d = Some a /\ is_stun d = Some b /\ is_dtls d = Some c) /\
  ~ (is_rtcp d = Some true /\ is_dtls d = Some true) /\
  (forall i, parse_raw d = POk i -> is_dtls d = Some false) /\
  (is_rtcp d = Some true -> packet_parse d = PErr ISRTCP).
Proof.
  intros d Hb. split.
  - destruct (is_rtcp_total d) as (a & ->), (is_stun_total d) as (b & ->), (is_dtls_total d) as (c & ->). eauto 10.
  - split; [intros [H1 H2]; rewrite (rtcp_dtls_disjoint d H1) in H2; discriminate|].
    split; [exact (rtp_not_dtls d)|exact (rtcp_refused d)].
Qed.
Print Assumptions datagram_classes_partial.

(** C02. A datagram is taken for RTCP, DTLS or STUN exactly when its first bytes say so. *)
Theorem datagram_classes_exact :
  forall d, Forall byte d ->
  (is_rtcp d = Some true <-> looks_rtcp d) /\ (is_rtcp d = Some false <-> ~ looks_rtcp d) /\
  (is_dtls d = Some true <-> looks_dtls d) /\ (is_dtls d = Some false <-> ~ looks_dtls d) /\
  (is_stun d = Some true <-> looks_stun d) /\ (is_stun d = Some false <-> ~ looks_stun d).
Proof.
  intros d Hb. rewrite <- (rtcp_exact d Hb), <- (stun_exact d Hb), <- (dtls_exact d).
  destruct (is_rtcp_total d) as (a & ->), (is_stun_total d) as (b & ->), (is_dtls_total d) as (c & ->).
  destruct a, b, c; intuition congruence.
Qed.
Print Assumptions datagram_classes_exact.
Example datagram_classes_ex :
  Forall byte ([128; 213] ++ repeat 0 20) /\ looks_rtcp ([128; 213] ++ repeat 0 20) /\ ~ looks_dtls ([128; 213] ++ repeat 0 20) /\
  looks_dtls (63 :: repeat 0 12) /\ looks_stun ([0; 1; 0; 0; 33; 18; 164; 66] ++ repeat 7 12).
Proof.
  split; [unfold byte; repeat constructor; try (vm_compute; discriminate)|]. split; [exists 128, 213, (repeat 0 20); split; [reflexivity|split; [reflexivity|lia]]|].
  split. { intros (_ & v & r & E & C). injection E as <- _. lia. }
  split; [split; [vm_compute; repeat constructor|exists 63, (repeat 0 12); split; [reflexivity|lia]]|].
  split; [vm_compute; repeat constructor|]. exists 0, 1, 0, 0, (repeat 7 12). reflexivity.
Qed.

(** C02, the full claim is false: only the magic word is checked for STUN, so an RTCP sender report
    (or a DTLS record, or a valid RTP packet) with 0x2112A442 at offset 4 is also taken for STUN. *)
Theorem datagram_classes_disjoint_refuted :
  (exists d, Forall byte d /\ is_rtcp d = Some true /\ is_stun d = Some true) /\
  (exists d, Forall byte d /\ is_dtls d = Some true /\ is_stun d = Some true) /\
  (exists d i, Forall byte d /\ packet_parse d = POk i /\ is_stun d = Some true).
Proof.
  split; [|split].
  - exists ([128; 200; 0; 6; 33; 18; 164; 66] ++ repeat 0 20).
    split; [unfold byte; repeat constructor; try (vm_compute; discriminate)|vm_compute; auto].
  - exists ([22; 254; 255; 0; 33; 18; 164; 66] ++ repeat 0 20).
    split; [unfold byte; repeat constructor; try (vm_compute; discriminate)|vm_compute; auto].
  - eexists ([128; 0; 0; 6; 33; 18; 164; 66] ++ repeat 0 20), _.
    split; [unfold byte; repeat constructor; try (vm_compute; discriminate)|].
    split; vm_compute; reflexivity.
Qed.
Print Assumptions datagram_classes_disjoint_refuted.
