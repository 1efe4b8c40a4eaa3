(** C52: reports made of received RTCP packets. *)
From Verif Require Import Base Str SbufModel RtcpModel RtcpSpec RtcpProof.

(** Whatever packets arrive, whatever realloc() returns: nothing outside a packet or the text
    buffer is touched, no assertion fails, every loop ends, and every packet is dealt with. *)
Theorem rtcp_packets_safe :
  forall (h : heap) raw addr bufs, raw <> [] -> Forall (Forall byte) bufs ->
  exists sent, module_run h raw addr bufs = Go sent /\ length sent = length bufs.
Proof.
  intros h raw addr bufs N F. destruct (module_ok h raw addr bufs N F) as (sent & E & G). exists sent. split; [exact E|].
  symmetry. eapply good_length, G.
Qed.
Print Assumptions rtcp_packets_safe.

(** With memory to be had, a packet yields no report exactly when it is not a compound RTCP packet
    of version 2: in particular one bad packet does not harm those after it. *)
Theorem rejected_exactly :
  forall (h : heap) raw addr bufs sent, raw <> [] -> Forall (Forall byte) bufs -> (forall n, h n <> None) ->
  module_run h raw addr bufs = Go sent ->
  Forall2 (fun buf s => s = None <-> ~ exists its, compound buf its) bufs sent.
Proof.
  intros h raw addr bufs sent N F M E. destruct (module_ok h raw addr bufs N F) as (sent' & E' & G). rewrite E in E'. injection E' as <-.
  eapply good_impl; [|exact G]. intros buf s (G1 & G2 & G3). split; [|exact G2]. intros -> [its Hc].
  destruct (G1 its Hc) as [Q|(_ & n & Hn)]; [discriminate|exact (M n Hn)].
Qed.
Print Assumptions rejected_exactly.

(** Everything in the reports is right except, possibly, the loss counts: the text sent for a
    compound packet consists of one JSON text for each report in it, in order, and these give the
    report with every loss count [z] replaced by [printed_loss z]. *)
Theorem reports_exact_but_losses :
  forall (h : heap) raw addr bufs sent, raw <> [] -> Forall (Forall byte) bufs -> (forall n, h n <> None) ->
  module_run h raw addr bufs = Go sent ->
  Forall2 (fun buf s => forall its, compound buf its -> exists t, s = Some t /\ reports (map (relost printed_loss) its) t) bufs sent.
Proof.
  intros h raw addr bufs sent N F M E. destruct (module_ok h raw addr bufs N F) as (sent' & E' & G). rewrite E in E'. injection E' as <-.
  eapply good_impl; [|exact G]. intros buf s (G1 & G2 & G3) its Hc. destruct (G1 its Hc) as [->|(_ & n & Hn)]; [|destruct (M n Hn)].
  eexists. split; [reflexivity|]. eapply reports_printed, compound_wires, Hc.
Qed.
Print Assumptions reports_exact_but_losses.

(** A loss count is printed right exactly when it is from 0 to 65535 or -1. *)
Theorem loss_right_iff : forall z, -8388608 <= z < 8388608 -> (printed_loss z = z <-> 0 <= z < 65536 \/ z = -1).
Proof. exact printed_right. Qed.
Print Assumptions loss_right_iff.

(** Hence the full claim for packets with such counts. Missing: all others. *)
Theorem reports_exact_partial :
  forall (h : heap) raw addr bufs sent, raw <> [] -> Forall (Forall byte) bufs -> (forall n, h n <> None) ->
  module_run h raw addr bufs = Go sent ->
  Forall2 (fun buf s => forall its, compound buf its -> Forall lost_fit its -> exists t, s = Some t /\ reports its t) bufs sent.
Proof.
  intros h raw addr bufs sent N F M E. destruct (module_ok h raw addr bufs N F) as (sent' & E' & G). rewrite E in E'. injection E' as <-.
  eapply good_impl; [|exact G]. intros buf s (G1 & G2 & G3) its Hc Hf. destruct (G1 its Hc) as [->|(_ & n & Hn)]; [|destruct (M n Hn)].
  eexists. split; [reflexivity|]. pose proof (compound_wires _ _ Hc) as Hw. rewrite <- (relost_fits its Hf (wires_ok _ _ Hw)) at 1. eapply reports_json, Hw.
Qed.
Print Assumptions reports_exact_partial.

(** When memory runs out a packet may yield nothing, but what is sent is complete all the same. *)
Theorem reports_never_cut :
  forall (h : heap) raw addr bufs sent, raw <> [] -> Forall (Forall byte) bufs -> module_run h raw addr bufs = Go sent ->
  Forall2 (fun buf s => forall t, s = Some t -> exists its, compound buf its /\ reports (map (relost printed_loss) its) t) bufs sent.
Proof.
  intros h raw addr bufs sent N F E. destruct (module_ok h raw addr bufs N F) as (sent' & E' & G). rewrite E in E'. injection E' as <-.
  eapply good_impl; [|exact G]. intros buf s (G1 & G2 & G3) t ->. destruct (G3 t eq_refl) as [its Hc]. exists its. split; [exact Hc|].
  destruct (G1 its Hc) as [Q|(Q & _)]; [|discriminate]. injection Q as ->. eapply reports_printed, compound_wires, Hc.
Qed.
Print Assumptions reports_never_cut.

(** A receiver report with one block of the given loss count. *)
Definition sample (lost : Z) : block := mkBlock 1 2 lost 3 4 5 6.
Definition sample_wire (lost : Z) : list Z := [129; 201; 0; 7] ++ n32 9 ++ wire_block (sample lost).
Lemma sample_compound lost : -8388608 <= lost < 8388608 -> compound (sample_wire lost) [Report 9 None [sample lost]].
Proof.
  intros H. exists (sample_wire lost), (Report 9 None [sample lost]), [], []. split; [symmetry; apply app_nil_r|]. split; [reflexivity|].
  split; [|constructor]. apply (w_report 2 0 9 None [sample lost] []); try (cbn; lia); try constructor; try constructor; unfold sample, block_ok, word, byte; cbn; try lia.
  - exists 8%nat. reflexivity.
Qed.
Definition mem : heap := fun n => Some (Z.of_nat n, fun _ => 7).

(** The loss counts are wrong: the same text is sent for packets with different loss counts. *)
Theorem loss_counts_refuted :
  exists buf1 buf2 its1 its2, compound buf1 its1 /\ compound buf2 its2 /\ its1 <> its2 /\
    module_run mem (repeat 0 512) 64 [buf1] = module_run mem (repeat 0 512) 64 [buf2].
Proof.
  exists (sample_wire 65536), (sample_wire 196608), [Report 9 None [sample 65536]], [Report 9 None [sample 196608]].
  split; [apply sample_compound; lia|]. split; [apply sample_compound; lia|]. split; [discriminate|]. vm_compute. reflexivity.
Qed.
Print Assumptions loss_counts_refuted.

(** A complete report is lost when anything after it in the datagram is cut short. *)
Theorem complete_report_kept_refuted :
  exists buf its tail, compound buf its /\ exists t, module_run mem (repeat 0 512) 64 [buf ++ tail; buf] = Go [None; Some t].
Proof.
  exists (sample_wire 5), [Report 9 None [sample 5]], [129; 202; 0; 2; 0; 0; 0; 1]. split; [apply sample_compound; lia|].
  eexists. vm_compute. reflexivity.
Qed.
Print Assumptions complete_report_kept_refuted.

(** Two reports in one datagram make two JSON texts without anything between them. *)
Example two_reports_ex : exists t, module_run mem (repeat 0 512) 64 [[128; 201; 0; 1; 0; 0; 0; 9]] = Go [Some t] /\
  module_run mem (repeat 0 512) 64 [[128; 201; 0; 1; 0; 0; 0; 9; 128; 201; 0; 1; 0; 0; 0; 9]] = Go [Some (t ++ t)] /\ hd 0 t = 123 /\ last t 0 = 125.
Proof. eexists. split; [vm_compute; reflexivity|]. split; [vm_compute; reflexivity|]. split; reflexivity. Qed.

(** A sender report followed by a packet of another type; no memory beyond a small buffer. *)
Example reports_exact_ex :
  let sr := [128; 200; 0; 6] ++ n32 7 ++ wire_sender (mkSender 1 2 3 4 5) in
  compound (sr ++ [129; 203; 0; 0]) [Report 7 (Some (mkSender 1 2 3 4 5)) []; Other 203] /\
  (exists t, module_run mem [1; 2] 64 [[0; 0]; sr ++ [129; 203; 0; 0]] = Go [None; Some t] /\ length t = 182%nat) /\
  module_run (fun n => if (n <? 5)%nat then mem n else None) [1; 2] 64 [sr] = Go [None].
Proof.
  split; [|split; [|vm_compute; reflexivity]].
  - eexists _, _, _, _. split; [reflexivity|]. split; [reflexivity|]. split.
    + apply (w_report 2 0 7 (Some (mkSender 1 2 3 4 5)) [] []); try (cbn; lia); try constructor; unfold sender_ok, word; cbn; try lia. exists 7%nat. reflexivity.
    + apply (ws_cons 2 [129; 203; 0; 0] _ []); [|constructor]. apply (w_other 2 0 1 203 []); try (cbn; lia); try constructor; unfold byte; try lia. exists 1%nat. reflexivity.
  - eexists. split; [vm_compute; reflexivity|]. vm_compute. reflexivity.
Qed.
