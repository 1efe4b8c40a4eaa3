(** C03: re-packetization loses, invents, reorders and retimes nothing. *)
From Coq Require Import Permutation.
From Verif Require Import Base RtpModel RtpSpec RtpProof RszModel RszSpec RszProof RszProof2 RszProof3.

(** No datagram, clock reading, allocation failure or change of packet time makes it fail an assertion or touch
    memory outside of a packet buffer. *)
Theorem resizer_memory_safe : forall ptime os, 0 < ptime < 1000 -> Forall valid os ->
  exists s tr, run (resizer_new ptime) os = Some (s, tr).
Proof. intros n os N V. destruct (run_sim os _ _ (sim0 n (proj1 N)) V) as (s & tr & _ & _ & R & _). eauto. Qed.
Print Assumptions resizer_memory_safe.

(** What it sent and what it still holds are well-formed packets that carry exactly the bytes it accepted. *)
Theorem resizer_keeps_media : forall ptime os s tr, 0 < ptime < 1000 -> Forall valid os ->
  run (resizer_new ptime) os = Some (s, tr) -> unpadded tr ->
  exists ins outs held, Forall2 is (taken tr) ins /\ Forall2 is (sent tr) outs /\ Forall2 is (map wire (s_q s)) held /\
    Permutation (media outs ++ media held) (media ins).
Proof. intros n os s tr N. exact (st_media n os s tr (proj1 N)). Qed.
Print Assumptions resizer_keeps_media.

(** Frames stay whole and keep the time at which they are to be played. *)
Theorem resizer_keeps_timing : forall ptime os s tr, 0 < ptime < 1000 -> Forall valid os ->
  run (resizer_new ptime) os = Some (s, tr) -> unpadded tr -> (forall d r, In d (taken tr) -> is d r -> framable r) ->
  exists ins outs held ti to th, Forall2 is (taken tr) ins /\ Forall2 is (sent tr) outs /\ Forall2 is (map wire (s_q s)) held /\
    Forall2 timed ins ti /\ Forall2 timed outs to /\ Forall2 timed held th /\ Permutation (concat to ++ concat th) (concat ti).
Proof. intros n os s tr N. exact (st_timing n os s tr (proj1 N)). Qed.
Print Assumptions resizer_keeps_timing.

(** With one source, media comes out packet after packet, in order of time. *)
Theorem resizer_keeps_order : forall ptime os s tr ssrc, 0 < ptime < 1000 -> Forall valid os ->
  run (resizer_new ptime) os = Some (s, tr) -> unpadded tr -> one_source ssrc tr ->
  exists ins outs held order, Forall2 is (taken tr) ins /\ Forall2 is (sent tr) outs /\ Forall2 is (map wire (s_q s)) held /\
    Permutation order ins /\ media outs ++ media held = media order /\ Forall (fun r => r_ssrc r = ssrc) outs /\
    (forall base, window base ins -> media outs ++ media held = media (by_time base ins)) /\
    (forall base, window base ins -> Forall framable ins ->
       exists to th tord, Forall2 timed outs to /\ Forall2 timed held th /\ Forall2 timed (by_time base ins) tord /\ concat to ++ concat th = concat tord).
Proof. intros n os s tr ssrc N V R U. exact (st_order n os s tr (proj1 N) V R U ssrc). Qed.
Print Assumptions resizer_keeps_order.

(** Packets sent are numbered one after the other, from the number of a packet that came in. *)
Theorem resizer_numbers : forall ptime os s tr, 0 < ptime < 1000 -> Forall valid os ->
  run (resizer_new ptime) os = Some (s, tr) -> unpadded tr ->
  exists outs, Forall2 is (sent tr) outs /\ numbered outs /\
    forall o t, outs = o :: t -> exists d r, In d (taken tr) /\ is d r /\ r_seq o = r_seq r.
Proof. intros n os s tr N. exact (st_seq n os s tr (proj1 N)). Qed.
Print Assumptions resizer_numbers.

(** A packet is refused only when it is late: earlier than the end of what was sent last. *)
Theorem resizer_refuses_only_late : forall ptime os s tr ssrc d its r i, 0 < ptime < 1000 -> Forall valid os ->
  run (resizer_new ptime) os = Some (s, tr) -> unpadded tr -> one_source ssrc tr -> (forall d r, In d (taken tr) -> is d r -> framable r) ->
  Forall byte d -> Z.of_nat (length d) <= 8192 -> is d r -> r_ssrc r = ssrc -> packet_parse d = POk i -> ri_nsamples i <> -1 ->
  exists s' e, step s (Enq d its) = Some (s', OEnq d e) /\ e <> EBack /\
    (e = ELate <-> exists l x o n, sent tr = l ++ [x] /\ is x o /\ lasts o n /\ earlier (r_ts r) (u32 (r_ts o + n))).
Proof. intros n os s tr ssrc d its r i N V R U. exact (st_late n os s tr (proj1 N) V R U ssrc d its r i). Qed.
Print Assumptions resizer_refuses_only_late.

(** Nothing is kept for ever: a packet is sent as soon as the packet time is gathered, and the queue can always be emptied. *)
Theorem resizer_sends_when_full : forall ptime os s tr held ns now, 0 < ptime < 1000 -> Forall valid os ->
  run (resizer_new ptime) os = Some (s, tr) -> unpadded tr -> (forall d r, In d (taken tr) -> is d r -> framable r) ->
  Forall2 is (map wire (s_q s)) held -> Forall2 lasts held ns -> held <> [] -> 8 * ptime_now ptime os <= zsum (fun n => n) ns ->
  exists s' d, step s (Get now true) = Some (s', OOut d).
Proof. intros n os s tr held ns now N V R U. exact (st_full n os s tr (proj1 N) V R U held ns now). Qed.
Print Assumptions resizer_sends_when_full.

Theorem resizer_drains : forall ptime os s tr, 0 < ptime < 1000 -> Forall valid os ->
  run (resizer_new ptime) os = Some (s, tr) -> exists gets s' tr', Forall is_get gets /\ run s gets = Some (s', tr') /\ s_q s' = [].
Proof. intros n os s tr N. exact (st_drain n os s tr (proj1 N)). Qed.
Print Assumptions resizer_drains.

(** A G.711 packet that lasts longer is cut at the packet time in force, rounded up to 10 ms, and the rest stays first. *)
Theorem resizer_cuts_at_packet_time : forall ptime os s tr now p q s' z R, 0 < ptime < 1000 -> Forall valid os ->
  run (resizer_new ptime) os = Some (s, tr) -> s_q s = p :: q -> z_pt p = 0 \/ z_pt p = 8 ->
  R mod 80 = 0 -> 8 * ptime_now ptime os <= R < 8 * ptime_now ptime os + 80 -> R < z_ns p -> get s now true = Some (s', Some z) ->
  z_ns z = R /\ z_dsize z = R /\ z_size z = z_off p + R /\ z_ts z = z_ts p /\ z_pt z = z_pt p
  /\ exists p', s_q s' = p' :: q /\ z_ns p' = z_ns p - R /\ z_dsize p' = z_dsize p - R /\ z_ts p' = u32 (z_ts p + R).
Proof.
  intros n os s tr now p q s' z R N V RUN Q PT D B L G.
  pose proof (out_now n os (resizer_new n) s tr ltac:(unfold resizer_new, set_ptime; cbn [s_out]; lia) RUN) as E.
  assert (P : 0 < ptime_now n os).
  { clear - N V. revert n N. induction V as [|o os H V IH]; intros n N; cbn [ptime_now]; [lia|]. destruct o; apply IH; assumption. }
  apply (get_cuts s now p q s' z R); try assumption; lia.
Qed.
Print Assumptions resizer_cuts_at_packet_time.

(** An example: two G.729 packets of 30 ms, out of order and across the wrap of the clock, re-packetized to 20 ms. *)
Definition pk (pt sq ts ssrc x : Z) (n : nat) (pad : list Z) : rtp_pkt := mkRtp 1 pt sq ts ssrc [] None (map (fun k => (x + Z.of_nat k) mod 256) (seq 0 n)) pad.
Definition ex_os : list op :=
  [Enq (encode (pk 18 41 100 7 50 30 [])) 0; Enq (encode (pk 18 40 4294967156 7 0 30 [])) 10; Get 10 true; Get 20 true; Get 600 true; Get 700 true].
Definition ex_outs : list rtp_pkt :=
  [mkRtp 1 18 40 4294967156 7 [] None (map Z.of_nat (seq 0 20)) [];
   mkRtp 0 18 41 20 7 [] None (map Z.of_nat (seq 20 10) ++ map (fun k => 50 + Z.of_nat k) (seq 0 10)) [];
   mkRtp 1 18 42 180 7 [] None (map (fun k => 50 + Z.of_nat k) (seq 10 20)) []].
Lemma pk_ok pt sq ts ssrc x n pad : 0 <= pt < 128 -> 0 <= sq < 65536 -> 0 <= ts < 4294967296 -> 0 <= ssrc < 4294967296 ->
  pad = [] \/ last pad 0 = Z.of_nat (length pad) /\ 0 < Z.of_nat (length pad) < 256 -> is (encode (pk pt sq ts ssrc x n pad)) (pk pt sq ts ssrc x n pad).
Proof. intros. split; [|reflexivity]. unfold wf, pk. cbn [r_marker r_pt r_seq r_ts r_ssrc r_csrc r_ext r_pad]. repeat (split; [first [lia|exists 0; cbn; lia|exact Logic.I]|]). assumption. Qed.
Example resizer_ex : Forall valid ex_os /\
  exists s tr, run (resizer_new 20) ex_os = Some (s, tr) /\ s_q s = [] /\ sent tr = map encode ex_outs /\
    unpadded tr /\ one_source 7 tr /\ window 4294967156 [pk 18 41 100 7 50 30 []; pk 18 40 4294967156 7 0 30 []] /\
    (forall d r, In d (taken tr) -> is d r -> framable r).
Proof.
  split.
  { apply valid_ok. vm_compute. reflexivity. }
  pose proof (pk_ok 18 41 100 7 50 30 [] ltac:(lia) ltac:(lia) ltac:(lia) ltac:(lia) (or_introl eq_refl)) as I1.
  pose proof (pk_ok 18 40 4294967156 7 0 30 [] ltac:(lia) ltac:(lia) ltac:(lia) ltac:(lia) (or_introl eq_refl)) as I2.
  assert (FR : forall x sq ts, framable (pk 18 sq ts 7 x 30 [])).
  { intros x sq ts. split; [discriminate|]. exists [map (fun k => (x + Z.of_nat k) mod 256) (seq 0 10); map (fun k => (x + Z.of_nat k) mod 256) (seq 10 10); map (fun k => (x + Z.of_nat k) mod 256) (seq 20 10)].
    cbn [pk r_pt r_payload].
    change (map (fun k => (x + Z.of_nat k) mod 256) (seq 0 30)) with (map (fun k => (x + Z.of_nat k) mod 256) (seq 0 10) ++ map (fun k => (x + Z.of_nat k) mod 256) (seq 10 10) ++ map (fun k => (x + Z.of_nat k) mod 256) (seq 20 10) ++ []).
    repeat constructor. }
  assert (TK : forall d r, In d [encode (pk 18 41 100 7 50 30 []); encode (pk 18 40 4294967156 7 0 30 [])] -> is d r -> r_pad r = [] /\ r_ssrc r = 7 /\ framable r).
  { intros d r [<-|[<-|[]]] I0.
    - destruct (is_same _ _ _ I1 I0) as (_ & PT & PL & SS). rewrite <- SS, <- (is_pad _ _ _ I1 I0). split; [reflexivity|]. split; [reflexivity|]. unfold framable. rewrite <- PT, <- PL. apply FR.
    - destruct (is_same _ _ _ I2 I0) as (_ & PT & PL & SS). rewrite <- SS, <- (is_pad _ _ _ I2 I0). split; [reflexivity|]. split; [reflexivity|]. unfold framable. rewrite <- PT, <- PL. apply FR. }
  eexists _, _. split; [vm_compute; reflexivity|]. split; [reflexivity|]. split; [vm_compute; reflexivity|]. split; [|split; [|split]].
  - intros d r ID. apply TK. exact ID.
  - intros d e r ID NB. apply TK. destruct ID as [E|[E|ID]]; [injection E as <- _; left; reflexivity|injection E as <- _; right; left; reflexivity|]. exfalso. cbn in ID. intuition discriminate.
  - repeat constructor; vm_compute; reflexivity.
  - intros d r ID. apply TK. exact ID.
Qed.

(** 30 ms of G.711 and a packet time of 15 ms: 20 ms are sent and 10 are left *)
Example resizer_cuts_ex : exists s tr p s' z, run (resizer_new 15) [Enq (encode (pk 0 5 1000 1 0 240 [])) 0] = Some (s, tr)
  /\ s_q s = [p] /\ z_pt p = 0 /\ 160 < z_ns p /\ get s 10 true = Some (s', Some z) /\ z_ns z = 160 /\ map z_ns (s_q s') = [80].
Proof. eexists _, _, _, _, _. split; [vm_compute; reflexivity|]. split; [reflexivity|]. split; [reflexivity|]. split; [reflexivity|]. split; [vm_compute; reflexivity|]. split; reflexivity. Qed.

(** Not with two sources: the tail of a packet that was split can be overtaken by a packet of another source, so that
    what was sent is no sequence of whole packets. *)
Definition two_os : list op :=
  [Enq (encode (pk 0 5 1000 1 0 240 [])) 0; Get 10 true; Enq (encode (pk 0 9 100 2 7 160 [])) 20; Get 30 true; Get 2000 true].
Theorem order_across_sources_refuted : Forall valid two_os /\
  exists s tr outs, run (resizer_new 20) two_os = Some (s, tr) /\ s_q s = [] /\ taken tr = map encode [pk 0 5 1000 1 0 240 []; pk 0 9 100 2 7 160 []] /\
    Forall2 is (sent tr) outs /\
    forall order, Permutation order [pk 0 5 1000 1 0 240 []; pk 0 9 100 2 7 160 []] -> media outs <> media order.
Proof.
  split.
  { apply valid_ok. vm_compute. reflexivity. }
  eexists _, _, [pk 0 5 1000 1 0 160 []; mkRtp 1 0 6 100 2 [] None (r_payload (pk 0 0 0 0 7 160 [])) []; mkRtp 0 0 7 1160 1 [] None (r_payload (pk 0 0 0 0 160 80 [])) []].
  split; [vm_compute; reflexivity|]. split; [reflexivity|]. split; [vm_compute; reflexivity|]. split.
  - repeat constructor; try (cbn; lia); try (exists 0; cbn; lia); vm_compute; reflexivity.
  - intros order P. apply Permutation_sym in P. apply Permutation_length_2_inv in P. destruct P as [-> | ->]; vm_compute; discriminate.
Qed.
Print Assumptions order_across_sources_refuted.

(** Not for G.722: a packet is split in the wrong place, and the bytes after it are played too late. *)
Definition g722_os : list op := [Enq (encode (pk 9 5 1000 1 0 320 [])) 0; Get 10 true; Get 1000 true].
Theorem timing_g722_refuted : Forall valid g722_os /\
  exists s tr outs, run (resizer_new 20) g722_os = Some (s, tr) /\ s_q s = [] /\ taken tr = map encode [pk 9 5 1000 1 0 320 []] /\ Forall2 is (sent tr) outs /\
    exists a b fa fb fi, outs = [a; b] /\ framed 9 (r_payload a) fa /\ framed 9 (r_payload b) fb /\ framed 9 (r_payload (pk 9 5 1000 1 0 320 [])) fi /\
      ~ Permutation (stamp 1 (r_ts a) fa ++ stamp 1 (r_ts b) fb) (stamp 1 1000 fi).
Proof.
  split.
  { apply valid_ok. vm_compute. reflexivity. }
  assert (FR : forall l, framed 9 l (map (fun b => [b]) l)) by (induction l as [|b l IH]; [constructor|]; apply (fr_cons 9 [b] l); [reflexivity|exact IH]).
  eexists _, _, [pk 9 5 1000 1 0 80 []; mkRtp 0 9 6 1160 1 [] None (r_payload (pk 9 0 0 0 80 240 [])) []].
  split; [vm_compute; reflexivity|]. split; [reflexivity|]. split; [vm_compute; reflexivity|]. split.
  - repeat constructor; try (cbn; lia); try (exists 0; cbn; lia); vm_compute; reflexivity.
  - do 5 eexists. split; [reflexivity|]. split; [apply FR|]. split; [apply FR|]. split; [apply FR|]. intros P.
    apply Permutation_sym, Permutation_map with (f := fst), late_stamp in P. vm_compute in P. discriminate.
Qed.
Print Assumptions timing_g722_refuted.

(** Not with padding: a packet that was split keeps its padding flag but not its padding. *)
Definition pad_os : list op := [Enq (encode (pk 0 5 1000 1 177 160 [0; 0; 0; 4])) 0; Get 10 true].
Theorem padding_refuted : Forall valid pad_os /\
  exists s tr d, run (resizer_new 10) pad_os = Some (s, tr) /\ taken tr = map encode [pk 0 5 1000 1 177 160 [0; 0; 0; 4]] /\ sent tr = [d] /\ forall r, ~ is d r.
Proof.
  split.
  { apply valid_ok. vm_compute. reflexivity. }
  eexists _, _, _. split; [vm_compute; reflexivity|]. split; [vm_compute; reflexivity|]. split; [reflexivity|]. eapply not_packet. vm_compute. reflexivity.
Qed.
Print Assumptions padding_refuted.
