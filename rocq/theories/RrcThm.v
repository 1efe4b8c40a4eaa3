(* C39: record/copy/stop-record histories. *)
From Coq Require Import List Arith Lia Bool.
From Verif Require Import RrcModel RrcSpec RrcProof.
Import ListNotations.

Ltac history os :=
  match goal with R : run ?c init os = Ok ?s |- _ =>
    let s0 := fresh in let R0 := fresh in let I := fresh "I" in
    destruct (run_ok c os init (inv_init c)) as (s0 & R0 & I);
    rewrite R in R0; assert (s0 = s) as -> by congruence; clear R0 end.

(* Whatever is recorded, copied and stopped, whatever fails on the way, no
   assertion fails and no closed recorder is used. *)
Theorem recording_never_fails : forall rrtcp os, exists s, run rrtcp init os = Ok s.
Proof. intros c os. destruct (run_ok c os init (inv_init c)) as (s & R & _). eauto. Qed.
Print Assumptions recording_never_fails.

(* A stream's RTCP is recorded exactly when its RTP is; never, if recording
   of RTCP is switched off. *)
Theorem recorded_together : forall rrtcp os s i idx, run rrtcp init os = Ok s ->
  present (getr s i true idx) = rrtcp && present (getr s i false idx).
Proof. intros c os s i idx R. history os. apply I. Qed.
Print Assumptions recorded_together.

(* A recorder is open exactly as long as some stream has it: it has one
   reference for each. *)
Theorem recorder_open_while_used : forall rrtcp os s k, run rrtcp init os = Ok s ->
  r_refs (nth k (recs s) norec) = holders (ses s) k.
Proof. intros c os s k R. history os. apply (i_bal _ _ I). Qed.
Print Assumptions recorder_open_while_used.

(* A command answered with success leaves the stream recorded; one answered
   with an error changes no stream's recording, except that a recording
   started just before its answer could not be delivered goes on.  Other
   streams are not touched either way. *)
Theorem copy_result : forall rrtcp os s i idx t single port e s' b,
  run rrtcp init os = Ok s -> i < length (ses s) ->
  handle_copy rrtcp s i idx t single port e = Ok (s', b) ->
  (b = true -> present (getr s' i false idx) = true) /\
  (b = false -> port = false \/ e_reply e = true ->
     forall j p x, getr s' j p x = getr s j p x) /\
  (forall j p x, j <> i \/ x <> idx -> getr s' j p x = getr s j p x).
Proof.
  intros c os s i idx t single port e s' b R L E. history os.
  destruct (copy_ok c s i idx t single port e I L) as (s1 & b1 & E1 & P). rewrite E in E1.
  assert (s1 = s') as -> by congruence. assert (b1 = b) as -> by congruence.
  destruct P as (_ & _ & P3 & P4 & P5 & _). auto.
Qed.
Print Assumptions copy_result.

(* A stream that was not recorded is recorded to the target that was asked
   for, both parts of it; with `s', if the other direction is recorded
   already, it joins that recording. *)
Theorem copy_goes_to_target : forall rrtcp os s i idx t single port e s',
  run rrtcp init os = Ok s -> i < length (ses s) ->
  handle_copy rrtcp s i idx t single port e = Ok (s', true) ->
  getr s i false idx = None ->
  let one := single && negb (is_udp t) in
  let se := nth i (ses s) nosess in
  (one = false \/ getr s i false (negb idx) = None ->
     recorded_to s' i false idx = Some (belongs (s_call se) (s_tag se) t idx one false) /\
     (rrtcp = true -> recorded_to s' i true idx = Some (belongs (s_call se) (s_tag se) t idx one true))) /\
  (one = true -> getr s i false (negb idx) <> None ->
     getr s' i false idx = getr s i false (negb idx)).
Proof.
  intros c os s i idx t single port e s' R L E G one se. history os.
  destruct (copy_ok c s i idx t single port e I L) as (s1 & b1 & E1 & P). rewrite E in E1.
  assert (s1 = s') as -> by congruence. assert (b1 = true) as -> by congruence.
  destruct P as (_ & _ & _ & _ & _ & P6 & _ & P8). subst one. split.
  - assert (B : forall p, belongs (s_call se) (s_tag se) t idx (single && negb (is_udp t)) p =
       place_of se t idx (if single && negb (is_udp t) then KBoth else if p then KRtcp else KRtp))
      by (intros p; destruct t, single, p; reflexivity).
    rewrite !B. intros H. apply P6; auto. destruct H as [H|H]; auto.
    destruct single; auto. destruct (is_udp t); auto.
  - intros H N. apply andb_true_iff in H; destruct H as [-> H]. apply negb_true_iff in H. auto.
Qed.
Print Assumptions copy_goes_to_target.

(* And there it stays, until a command about that stream, or the end of the
   session. *)
Theorem recording_stays : forall rrtcp before s os s' i idx rtcp q,
  run rrtcp init before = Ok s -> run rrtcp s os = Ok s' ->
  (forall o, In o os -> ~ about o i idx) ->
  recorded_to s i rtcp idx = Some q -> recorded_to s' i rtcp idx = Some q.
Proof.
  intros c before s os s' i idx p q R R' N H. history before. eapply run_kept; eauto.
Qed.
Print Assumptions recording_stays.

(* A stop command stops both parts, and says whether there was anything to
   stop; nothing else is touched. *)
Theorem stop_stops : forall rrtcp os s i idx, run rrtcp init os = Ok s -> i < length (ses s) ->
  exists s', handle_stop rrtcp s i idx = Ok (s', present (getr s i false idx)) /\
    getr s' i false idx = None /\ getr s' i true idx = None /\
    (forall j p x, j <> i \/ x <> idx -> getr s' j p x = getr s j p x).
Proof.
  intros c os s i idx R L. history os.
  destruct (stop_ok c s i idx I L) as (s' & E & _ & _ & A & F & G). exists s'. auto.
Qed.
Print Assumptions stop_stops.

(* When a session ends nothing of it is recorded any more; the others go on. *)
Theorem end_stops : forall rrtcp os s i, run rrtcp init os = Ok s -> i < length (ses s) ->
  exists s', handle_end s i = Ok s' /\
    forall j p x, getr s' j p x = if j =? i then None else getr s j p x.
Proof.
  intros c os s i R L. history os.
  destruct (end_ok c s i I L) as (s' & E & _ & _ & A). exists s'. auto.
Qed.
Print Assumptions end_stops.

Definition fine := mkenv true true true true.

(* A copy command for a stream that is recorded already is answered with
   success, and with a port, although nothing is sent to its target. *)
Theorem copy_success_means_copied_refuted : exists os s s',
  run true init os = Ok s /\
  handle_copy true s 0 false (TUdp 5) false true fine = Ok (s', true) /\
  recorded_to s' 0 false false = Some (PAuto 1 2 (Some false) KRtp).
Proof.
  exists [RNew 1 2; RCopy 0 false TNone false false fine]. eexists. eexists.
  split; [vm_compute; reflexivity|]. split; vm_compute; reflexivity.
Qed.
Print Assumptions copy_success_means_copied_refuted.

(* Two recorders that are open at the same time may write to the same file:
   when two media of a call are recorded (their sessions differ in the media
   number alone, which is not part of the file name), *)
Theorem recorders_have_own_files_refuted : exists os s,
  run true init os = Ok s /\
  recorded_to s 0 false false = recorded_to s 1 false false /\
  recorded_to s 0 false false <> None /\
  getr s 0 false false <> getr s 1 false false.
Proof.
  exists [RNew 1 2; RNew 1 2; RCopy 0 false TNone false false fine;
          RCopy 1 false TNone false false fine]. eexists.
  split; [vm_compute; reflexivity|]. vm_compute. split; [reflexivity|]. split; discriminate.
Qed.
Print Assumptions recorders_have_own_files_refuted.

(* when both directions of a session are copied to a file of the same name, *)
Theorem directions_have_own_files_refuted : exists os s,
  run true init os = Ok s /\
  recorded_to s 0 false false = recorded_to s 0 false true /\
  recorded_to s 0 false false <> None /\
  getr s 0 false false <> getr s 0 false true.
Proof.
  exists [RNew 1 2; RCopy 0 false (TFile 9) false false fine;
          RCopy 0 true (TFile 9) false false fine]. eexists.
  split; [vm_compute; reflexivity|]. vm_compute. split; [reflexivity|]. split; discriminate.
Qed.
Print Assumptions directions_have_own_files_refuted.

(* and when a direction is stopped and started again while the other one has
   joined its recording. *)
Theorem restarted_has_own_file_refuted : exists os s,
  run true init os = Ok s /\
  recorded_to s 0 false false = recorded_to s 0 false true /\
  recorded_to s 0 false false <> None /\
  getr s 0 false false <> getr s 0 false true.
Proof.
  exists [RNew 1 2; RCopy 0 false TNone false false fine; RCopy 0 true TNone true false fine;
          RStop 0 false; RCopy 0 false TNone false false fine]. eexists.
  split; [vm_compute; reflexivity|]. vm_compute. split; [reflexivity|]. split; discriminate.
Qed.
Print Assumptions restarted_has_own_file_refuted.

(* The commands are safe among themselves, but not against the thread that
   relays packets: stopping a recording while a packet is being recorded makes
   that thread use a recorder that is closed, or a null pointer. *)
Theorem stop_while_relaying_safe_refuted :
  duel_run (mkduel (Some tt) true 0 0) [DRelay; DCmd; DRelay] = DFreed /\
  duel_run (mkduel (Some tt) true 0 0) [DRelay; DCmd; DCmd; DRelay] = DNull.
Proof. split; reflexivity. Qed.
Print Assumptions stop_while_relaying_safe_refuted.

(* The part that holds: a stop that does not fall between the two reads. *)
Theorem stop_between_packets_safe_partial : forall n, exists d,
  duel_run (mkduel (Some tt) true 0 0) ([DRelay; DRelay] ++ repeat DCmd n) = DOk d.
Proof.
  intro n. cbn [app duel_run duel_step d_ptr d_open d_relay d_cmd].
  assert (forall m d, exists d', duel_run d (repeat DCmd m) = DOk d') as H.
  { induction m as [|m IH]; intros d; cbn [repeat duel_run]; [eauto|].
    cbn [duel_step]. destruct (d_cmd d) as [|[|x]]; apply IH. }
  apply H.
Qed.
Print Assumptions stop_between_packets_safe_partial.

Definition hist : list op :=
  [RNew 1 2; RNew 3 4;
   RCopy 0 false TNone true false fine; RCopy 0 true TNone true false fine;
   RCopy 1 false (TUdp 7) false true fine;
   RCopy 1 true (TFile 8) false false (mkenv true true false true);
   RStop 0 false; REnd 1].

Example rrc_ex : exists s, run true init hist = Ok s /\
  getr s 0 false false = None /\ getr s 0 false true = Some 0 /\ getr s 0 true true = Some 0 /\
  map r_refs (recs s) = [2; 0; 0; 0] /\ map r_place (recs s) =
    [PAuto 1 2 None KBoth; PUdp 7 KRtp; PUdp 7 KRtcp; PFile 8 KRtp].
Proof. eexists; split; [vm_compute; reflexivity|]. vm_compute. auto. Qed.
