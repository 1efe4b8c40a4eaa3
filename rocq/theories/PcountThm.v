(** C09: packet accounting is conserved. *)
From Verif Require Import Base PcountModel PcountSpec PcountProof.

(** For every number of threads and every interleaving of their atomic accesses (fewer than 2^64
    of them): at every moment the three counters read exactly the number of registrations begun
    of each kind; the table of drop locations holds no location twice; the drops attributed to
    all locations together do not exceed the drops, and those attributed to one location do not
    exceed the drops registered from that location. *)
Theorem packet_counters_conserved :
  forall (nthreads : nat) (sched : list (nat * pc_op)),
  Z.of_nat (length sched) < 18446744073709551616 ->
  let s := pc_run nthreads sched in let st := ps_started s in let l := locs (ps_cnt s) in
  pcount_get_stats (ps_cnt s) = (how_many is_reld st, how_many is_drop st, how_many is_ignr st) /\
  NoDup (loc_ptrs l) /\
  zsum snd l <= how_many is_drop st /\
  (forall m c, In (Some m, c) l -> 0 <= c <= how_many (is_drop_at m) st).
Proof. exact pcount_main. Qed.
Print Assumptions packet_counters_conserved.

(** Once no registration is in progress, and if at most four code locations dropped packets, the
    drop report has exactly one line per dropping location with the exact number of drops. *)
Theorem drop_report_exact :
  forall (nthreads : nat) (sched : list (nat * pc_op)) (locations : list Z),
  Z.of_nat (length sched) < 18446744073709551616 ->
  let s := pc_run nthreads sched in let st := ps_started s in
  all_idle s -> (length locations <= 4)%nat -> (forall m, In (PDrop m) st -> In m locations) ->
  forall m c, In (m, c) (pcount_log_drops (locs (ps_cnt s))) <-> c = how_many (is_drop_at m) st /\ c <> 0.
Proof. exact pcount_attr. Qed.
Print Assumptions drop_report_exact.

(** With a fifth location the report is incomplete. *)
Theorem drop_report_five_locations_refuted :
  exists nthreads sched m, let s := pc_run nthreads sched in
    all_idle s /\ In (PDrop m) (ps_started s) /\
    forall c, ~ In (m, c) (pcount_log_drops (locs (ps_cnt s))).
Proof.
  exists 1%nat,
   (concat (map (fun k => repeat (0%nat, PDrop k) (Z.to_nat k + 3)) [1; 2; 3; 4]) ++
    repeat (0%nat, PDrop 5) 6), 5.
  vm_compute. split; [|split].
  - intros a [<-|[]]; reflexivity.
  - tauto.
  - intros c H. repeat destruct H as [H|H]; try discriminate; contradiction.
Qed.
Print Assumptions drop_report_five_locations_refuted.

(** Per-stream arrival statistics: for every non-empty history of arrivals with positive time
    stamps: the packet count is exact, the first arrival is the first packet's, the last arrival
    is the packet with the largest time stamp, and the longest gap is the largest distance
    between an arrival and the latest arrival before it. *)
Theorem stream_arrivals_exact :
  forall (m0 w0 : Z) (h : list (Z * Z)),
  Forall (fun x => 0 < fst x) ((m0, w0) :: h) ->
  Z.of_nat (length ((m0, w0) :: h)) < 18446744073709551616 ->
  let r := fold_left reg_pktin ((m0, w0) :: h) pcnts_ctor in
  npkts_in r = Z.of_nat (length ((m0, w0) :: h)) /\
  (first_mono r, first_wall r) = (m0, w0) /\
  In (last_mono r, last_wall r) ((m0, w0) :: h) /\
  (forall x, In x ((m0, w0) :: h) -> fst x <= last_mono r) /\
  longest_ipi r = longest_gap m0 h.
Proof. exact pcnts_main. Qed.
Print Assumptions stream_arrivals_exact.

(** Two threads race for the same slot with different locations, and with the same location. *)
Example packet_counters_conserved_ex :
  let sched := [(0, PDrop 7); (1, PDrop 8); (0, PReld); (1, PReld); (0, PReld); (1, PReld); (1, PIgnr);
                (0, PIgnr); (1, PIgnr); (1, PIgnr); (1, PIgnr); (0, PReld); (0, PDrop 8);
                (0, PReld); (0, PReld); (0, PReld)]%nat in
  let s := pc_run 2 sched in
  all_idle s /\ pcount_get_stats (ps_cnt s) = (1, 3, 0) /\
  pcount_log_drops (locs (ps_cnt s)) = [(7, 1); (8, 2)].
Proof. vm_compute. split; [intros a H; intuition congruence|auto]. Qed.

Example stream_arrivals_exact_ex :
  let r := fold_left reg_pktin [(10, 1); (30, 2); (25, 3); (90, 4)] pcnts_ctor in
  (npkts_in r, last_mono r, last_wall r, longest_ipi r) = (4, 90, 4, 60).
Proof. reflexivity. Qed.
