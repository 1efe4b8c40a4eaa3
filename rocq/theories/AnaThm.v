(** C34: loss, reordering and duplicate accounting is exact. *)
From Verif Require Import Base AnaModel AnaSpec AnaProof.

(** For any number of SSRCs one after the other, each with packets whose reordering stays within the
    window, and the last one across any number of sequence number wraps, the counts reported are the true ones
    (reported modulo 2^32) and no error is counted. *)
Theorem accounting_exact : forall gs, gs <> [] -> chain gs -> Z.of_nat (length gs) < 4294967296 ->
  let r := get_stats (ana_run ana0 (flat_map packets gs)) in
  r_psent r = u32 (zsum span gs) /\
  r_precvd r = u32 (zsum (fun g => distinct (numbers g)) gs) /\
  r_pdups r = u32 (zsum copies gs) /\
  r_plost r = u32 (zsum (fun g => span g - distinct (numbers g)) gs) /\
  r_chg r = Z.of_nat (length gs) /\ r_pecount r = 0 /\ r_aecount r = 0.
Proof.
  intros gs NE C L. destruct (chain_ok gs _ _ _ _ _ _ after0 eq_refl C) as (pv & [TOT CHG PE AE _ _]); [destruct gs; [exact I|discriminate]|lia|lia|].
  unfold get_stats. rewrite TOT, CHG, PE, AE. rewrite !Z.add_0_l. cbn [r_psent r_precvd r_pdups r_plost r_chg r_pecount r_aecount]. repeat (split; [reflexivity|]). split; [|auto].
  apply u32_cong. destruct (u32_ex (zsum span gs)) as [q1 ->], (u32_ex (zsum (fun g => distinct (numbers g)) gs)) as [q2 ->].
  exists (q1 - q2). clear. induction gs as [|g t IH]; cbn [zsum]; lia.
Qed.
Print Assumptions accounting_exact.

(** Whatever arrives (any SSRCs, numbers, marker bits, garbage, lack of memory), every packet is counted exactly
    once: as received, duplicate, unparseable or erroneous. *)
Theorem every_packet_counted_once : forall ps, Z.of_nat (length ps) < 4294967296 ->
  let r := get_stats (ana_run ana0 ps) in
  u32 (r_precvd r + r_pdups r + r_pecount r + r_aecount r) = Z.of_nat (length ps).
Proof.
  intros ps L. pose proof (run_counted ps 0 ana0 cinv0 ltac:(lia) ltac:(lia)) as [CN _ _ _ _]. rewrite Z.add_0_l in CN. rewrite (u32_small (Z.of_nat _)) in CN by lia.
  unfold get_stats. unfold counted in CN. destruct (totals _) as [[a b] c]. cbn [r_precvd r_pdups r_pecount r_aecount]. exact CN.
Qed.
Print Assumptions every_packet_counted_once.

(** At most ten SSRCs have jitter data at any time, never two records for one SSRC, and a packet that was
    accounted for has a record. *)
Theorem jitter_records_bounded : forall ps,
  let jd := t_jd (a_stat (ana_run ana0 ps)) in NoDup jd /\ (length jd <= 10)%nat.
Proof.
  intros ps. apply jd_run_ok; cbn; [constructor|lia].
Qed.
Print Assumptions jitter_records_bounded.

(** ** What the conditions exclude *)
Definition plain (ssrc : Z) (l : list Z) : list (option pkt) := map (fun n => Some (mkPkt ssrc n false true)) l.

(** A stream that starts just after a wrap and whose second packet is the one before: three packets, none lost. *)
Theorem start_after_wrap_refuted : r_plost (get_stats (ana_run ana0 (plain 7 [0; 65535; 1]))) = 4294967293.
Proof. vm_compute. reflexivity. Qed.
Print Assumptions start_after_wrap_refuted.

(** After a wrap the next SSRC starts out of step: a packet lost right after its first one is not counted. *)
Theorem ssrc_change_after_wrap_refuted :
  r_plost (get_stats (ana_run ana0 (plain 7 [65535; 0] ++ plain 8 [100; 102; 103]))) = 0 /\
  r_plost (get_stats (ana_run ana0 (plain 7 [65534; 65535] ++ plain 8 [100; 102; 103]))) = 1.
Proof. split; vm_compute; reflexivity. Qed.
Print Assumptions ssrc_change_after_wrap_refuted.

(** The marker bit on the first packet after a wrap hides the packets lost before it. *)
Theorem marker_at_wrap_refuted :
  r_plost (get_stats (ana_run ana0 [Some (mkPkt 7 65533 false true); Some (mkPkt 7 0 true true); Some (mkPkt 7 1 false true)])) = 0 /\
  r_plost (get_stats (ana_run ana0 [Some (mkPkt 7 65533 false true); Some (mkPkt 7 0 false true); Some (mkPkt 7 1 false true)])) = 2.
Proof. split; vm_compute; reflexivity. Qed.
Print Assumptions marker_at_wrap_refuted.

(** The first packet received was overtaken by the second, across a wrap: an error instead of a packet. *)
Theorem first_overtaken_refuted :
  let r := get_stats (ana_run ana0 (plain 7 [65535; 0; 65534])) in r_psent r = 2 /\ r_precvd r = 2 /\ r_aecount r = 1.
Proof. vm_compute. auto. Qed.
Print Assumptions first_overtaken_refuted.

(** One packet from the edge of the window is a restart. *)
Theorem window_is_535_refuted :
  r_plost (get_stats (ana_run ana0 (plain 7 [65534; 65535; 0; 65000]))) = 0 /\
  r_psent (get_stats (ana_run ana0 (plain 7 [65000; 65535; 0; 65001]))) = 537.
Proof. vm_compute. auto. Qed.
Print Assumptions window_is_535_refuted.

(** Loss, reordering and duplicates around two wraps, after another SSRC. *)
Definition ana_ex : list segment :=
  [mkSeg 5 10 true [(12, false); (11, false); (11, false); (9, false)];
   mkSeg 6 65000 false ([(65535, true); (65536, true); (65534, false); (65534, false)] ++ map (fun i => (65536 + 500 * Z.of_nat i, false)) (seq 1 140) ++ [(65536 + 500 * 139, false)])].
Example ana_ex_ok : chain ana_ex /\
  (let r := get_stats (ana_run ana0 (flat_map packets ana_ex)) in
   r_psent r = 4 + (65536 + 500 * 140 - 65000 + 1) /\ r_precvd r = 4 + 144 /\ r_pdups r = 1 + 2 /\ r_chg r = 2).
Proof.
  split; [|vm_compute; auto]. cbn [ana_ex chain g_ssrc]. unfold good. cbn [g_first g_rest].
  split; [split; [lia|apply toleratedb_ok; vm_compute; reflexivity]|]. split; [split; [discriminate|reflexivity]|]. split; [|split; exact I].
  split; [lia|apply toleratedb_ok; vm_compute; reflexivity].
Qed.
