(** The packet port of the library: the threads of the application, of the engine and of the port in any order. *)
From Coq Require Import FinFun.
From Verif Require Import Base PportModel PportSpec PportProof.

(** Packets from the application leave the queue in the order in which they were accepted, each once: taken by the worker, dropped for a newer one or released at the end. The worker deals
    with what it took, in order. *)
Theorem packets_from_application_in_order cap tso acts s es :
  0 < cap -> run cap tso init acts = (s, es) ->
  accepted es = left_out es ++ out s ++ concat (sb s) /\ took es = dealt es ++ hand s.
Proof.
  intros C R. pose proof (run_inv cap tso C acts init [] (inv_init cap tso C)) as I. rewrite R in I. cbn [fst snd List.app] in I. destruct I; auto.
Qed.
(** Packets to the application enter the queue in the order in which the engine sent them (if there is memory) and leave it in this order, each once. *)
Theorem packets_to_application_in_order cap tso acts s es :
  0 < cap -> run cap tso init acts = (s, es) ->
  sent es = settled es ++ datas (work s) ++ datas (pq s) /\ entered es = left_in es ++ inq s.
Proof.
  intros C R. pose proof (run_inv cap tso C acts init [] (inv_init cap tso C)) as I. rewrite R in I. cbn [fst snd List.app] in I. destruct I; auto.
Qed.
(** A packet is handled by the stream that is registered for its port at that moment, and by none if none is. *)
Theorem packets_go_to_their_stream cap tso acts s es :
  0 < cap -> run cap tso init acts = (s, es) ->
  (forall e1 e2 p x, es = e1 ++ Handled p x :: e2 -> registered e1 (pport p) = Some x) /\
  (forall e1 e2 p, es = e1 ++ NoStream p :: e2 -> registered e1 (pport p) = None).
Proof.
  intros C R. pose proof (run_inv cap tso C acts init [] (inv_init cap tso C)) as I. rewrite R in I. cbn [fst snd List.app] in I. destruct I; auto.
Qed.
(** The queues keep their limits, and the array for packets taken out of them is not overrun. *)
Theorem port_keeps_limits cap tso acts s es :
  0 < cap -> run cap tso init acts = (s, es) ->
  zlen (out s) <= cap /\ zlen (inq s) <= cap /\ zlen (pq s) <= cap + 1 /\ overrun s = false.
Proof.
  intros C R. pose proof (run_inv cap tso C acts init [] (inv_init cap tso C)) as I. rewrite R in I. cbn [fst snd List.app] in I. destruct I.
  pose proof (zlen_nonneg (concat (sb s))). repeat split; auto. lia.
Qed.
(** A try to push is refused only when the queue is full, packets of many are accepted as far as there is room, and a pop returns the oldest packets that are there. *)
Theorem calls_tell_the_queue cap tso acts s es :
  0 < cap -> run cap tso init acts = (s, es) -> app s = AIdle ->
  let inside := zlen (accepted es) - zlen (left_out es) in
  0 <= inside <= cap /\
  (forall p, snd (step cap tso s (UTryPush p)) = [if inside <? cap then Accepted p else Refused p]) /\
  (forall ps, let n := Z.to_nat (cap - inside) in snd (step cap tso s (UTryPushMany ps)) = map Accepted (firstn n ps) ++ map Refused (skipn n ps)) /\
  (forall n, exists l, entered es = left_in es ++ l /\ snd (step cap tso s (UPop n)) = map Got (firstn n l)).
Proof.
  intros C R A. pose proof (run_inv cap tso C acts init [] (inv_init cap tso C)) as I. rewrite R in I. cbn [fst snd List.app] in I.
  pose proof (i_acc _ _ _ _ I) as AC. pose proof (i_out _ _ _ _ I) as IO. pose proof (i_ent _ _ _ _ I) as EN.
  apply (f_equal zlen) in AC. rewrite !zlen_app in AC. pose proof (zlen_nonneg (out s)). pose proof (zlen_nonneg (concat (sb s))).
  cbv zeta. replace (zlen (accepted es) - zlen (left_out es)) with (zlen (out s) + zlen (concat (sb s))) by lia. repeat split.
  - lia.
  - lia.
  - intros p. cbn [step]. unfold u_try_push, room. rewrite A. destruct (Z.leb_spec 1 (cap - (zlen (out s) + zlen (concat (sb s))))); destruct (Z.ltb_spec (zlen (out s) + zlen (concat (sb s))) cap); try lia; auto.
  - intros ps. cbn [step]. unfold u_try_push_many. rewrite A. reflexivity.
  - intros n. exists (inq s). split; auto. cbn [step]. unfold u_pop, alive. rewrite A. auto.
Qed.
(** Partial (sequential consistency): after a successful flush, when the worker has nothing more to do, all the packets accepted before the flush have left the queue. *)
Theorem flush_is_honoured_partial cap acts s es e1 e2 :
  0 < cap -> run cap false init acts = (s, es) -> es = e1 ++ FlushOk :: e2 -> resting s ->
  exists r, left_out es = accepted e1 ++ r.
Proof.
  intros C R E Q. pose proof (run_inv cap false C acts init [] (inv_init cap false C)) as I.
  pose proof (run_fi cap C acts init [] (inv_init cap false C) (fi_init)) as F. rewrite R in I, F. cbn [fst snd List.app] in I, F.
  pose proof (resting_flushed cap s es I F Q) as L. rewrite E in L at 1. pose proof (fl_before e1 e2).
  pose proof (i_acc _ _ _ _ I) as AC. eapply prefix_of with (b := out s ++ concat (sb s)) (d := accepted (FlushOk :: e2)); [|lia].
  rewrite <- AC, E. apply flat_map_app.
Qed.
(** With stores delayed behind later loads, as on x86, it is not: the counter of runs is loaded before the packet is visible to the worker. *)
Definition flush_race : list act :=
  [UFlush; UStep true; UTryPush (mkPkt 1 2); UFlush] ++ repeat (KStep (fun _ => false)) 6 ++ [UCommit].
Theorem flush_is_honoured_refuted :
  let '(s, es) := run 4 true init flush_race in
  (wrk s, pq s, sb s, out s, es) = (KWait, [], [], [mkPkt 1 2], [FlushOk; Accepted (mkPkt 1 2); FlushOk]).
Proof. vm_compute. reflexivity. Qed.
(** The worker comes to rest if it is left alone. *)
Theorem worker_comes_to_rest cap tso acts fails :
  0 < cap -> exists n, let s := fst (run cap tso (fst (run cap tso init acts)) (repeat (KStep fails) n)) in resting s \/ wrk s = KDead.
Proof.
  intros C. eapply worker_rests; [exact C|exact (run_inv cap tso C acts init [] (inv_init cap tso C))|apply Nat.le_refl].
Qed.
(** A push queues the packet: no, it drops it if the worker empties the full queue between the two accesses. *)
Definition push_race : list act :=
  [UTryPush (mkPkt 1 2); UPush (mkPkt 2 2); UStep true; KTimer; KStep (fun _ => false); KStep (fun _ => false); UStep true].
Theorem push_queues_refuted :
  let '(s, es) := run 1 false init push_race in
  out s = [] /\ es = [Accepted (mkPkt 1 2); Took (mkPkt 1 2); Lost (mkPkt 2 2)].
Proof. vm_compute. auto. Qed.
(** A packet to the application is dropped only for a newer one: no, a flush costs one if the queue is full. *)
Definition flush_drops : list act :=
  [ESend (mkPkt 1 2) true; KStep (fun _ => false); KStep (fun _ => false); KStep (fun _ => false); UFlush; UStep true] ++ repeat (KStep (fun _ => false)) 8.
Theorem dropped_for_newer_refuted :
  let '(s, es) := run 1 false init flush_drops in
  sent es = [mkPkt 1 2] /\ In (DropIn (mkPkt 1 2)) es /\ inq s = [].
Proof. vm_compute. tauto. Qed.
(** Partial: the destructor returns if there is room for its signal when it is called, whatever the threads do then. *)
Theorem destructor_returns_partial cap tso acts s es acts2 fails :
  0 < cap -> run cap tso init acts = (s, es) -> app s = AIdle -> zlen (pq s) <= cap ->
  exists n m, In Ended (snd (run cap tso s (UDtor :: acts2 ++ repeat (KStep fails) n ++ repeat UCommit m ++ [UStep true]))).
Proof.
  intros C R A L. pose proof (run_inv cap tso C acts init [] (inv_init cap tso C)) as I. rewrite R in I. cbn [fst snd List.app] in I.
  pose proof (step_inv cap tso C s es UDtor I) as I1. cbn [step] in I1.
  assert (J : app (fst (u_dtor cap s)) = AJoin /\ dying (fst (u_dtor cap s))).
  { unfold u_dtor. rewrite A. unfold pq_full. destruct (Z.geb_spec (zlen (pq s)) (cap + 1)); [lia|]. cbn. split; auto. left. apply in_or_app. right. left. auto. }
  destruct J as (J1 & J2). destruct (join_run cap tso acts2 _ J1 J2) as [(K1 & K2)|E].
  - destruct (join_ends cap tso C _ _ fails (run_inv cap tso C acts2 _ _ I1) K1 K2) as (n & m & E). exists n, m. cbn [run step].
    destruct (u_dtor cap s) as [s1 e1] eqn:D. cbn [fst snd] in *. rewrite run_app. cbn [snd]. rewrite !in_app_iff. auto.
  - exists O, O. cbn [run step]. destruct (u_dtor cap s) as [s1 e1] eqn:D. cbn [fst snd] in *. rewrite run_app. cbn [snd]. rewrite !in_app_iff. auto.
Qed.
(** Otherwise it never returns. *)
Theorem destructor_returns_refuted cap tso acts s es acts2 :
  0 < cap -> run cap tso init acts = (s, es) -> app s = AIdle -> zlen (pq s) = cap + 1 ->
  ~ In Ended (snd (run cap tso s (UDtor :: acts2))).
Proof.
  intros C R A L. pose proof (run_inv cap tso C acts init [] (inv_init cap tso C)) as I. rewrite R in I. cbn [fst snd List.app] in I.
  cbn [run step]. unfold u_dtor. rewrite A. unfold pq_full. destruct (Z.geb_spec (zlen (pq s)) (cap + 1)); [|lia].
  pose proof (hang_run cap tso acts2 (with_app s AJoin) eq_refl) as H1. destruct (run cap tso (with_app s AJoin) acts2). cbn [snd List.app] in *. apply H1.
  apply (i_term _ _ _ _ I). unfold alive. rewrite A. auto.
Qed.
Definition two_packets : list act := [ESend (mkPkt 1 2) true; ESend (mkPkt 2 2) true].
Example full_queue : let s := fst (run 1 false init two_packets) in app s = AIdle /\ zlen (pq s) = 1 + 1.
Proof. vm_compute. auto. Qed.
(** When the destructor returns, every packet that was accepted has been dealt with and released once. *)
Theorem end_releases_everything cap tso acts s es :
  0 < cap -> run cap tso init acts = (s, es) -> In Ended es ->
  left_out es = accepted es /\ dealt es = took es /\ settled es = sent es /\ left_in es = entered es.
Proof.
  intros C R E. pose proof (run_inv cap tso C acts init [] (inv_init cap tso C)) as I. pose proof (ended_run cap tso acts init) as G. rewrite R in I, G. cbn [fst snd List.app] in *.
  destruct (G E) as (_ & W & O & SB & Q & P). destruct I. unfold hand, work in *. rewrite W, ?O, ?SB, ?Q, ?P in *. cbn in *. rewrite ?app_nil_r in *. auto.
Qed.
(** Numbers of ports: the first 2^31-1 of them are even, at least 2, and all different, whatever the threads that ask for them. *)
Theorem port_numbers_distinct ts :
  Z.of_nat (length ts) < 2 ^ 31 ->
  map fst (given (run_alloc ts)) = ts /\ NoDup (map snd (given (run_alloc ts))) /\
  Forall (fun v => Z.even v = true /\ 2 <= v < 2 ^ 32) (map snd (given (run_alloc ts))).
Proof.
  intros L. destruct (alloc_inv ts L) as (_ & _ & F & G). rewrite G. split; [exact F|]. split.
  - apply Injective_map_NoDup; [intros i j E; lia|apply seq_NoDup].
  - apply Forall_forall. intros v V. apply in_map_iff in V as (i & <- & V). apply in_seq in V. change (2 ^ 31) with 2147483648 in L. change (2 ^ 32) with 4294967296.
    split; [|lia]. replace (2 + 2 * Z.of_nat i) with (2 * (1 + Z.of_nat i)) by lia. apply Z.even_mul.
Qed.

(** Two streams, packets of both and of none, one that does not fit, a flush, packets to the application of which one is dropped, and the end *)
Definition session : list act :=
  let k n := repeat (KStep (fun _ => false)) (Z.to_nat n) in
  [EReg 2 70 true; EReg 3 71 true; UTryPushMany [mkPkt 1 2; mkPkt 2 9; mkPkt 3 3]; UPush (mkPkt 4 2); UStep true; UStep true; UStep true; UFlush; UStep true] ++ k 4 ++
  k 8 ++ [EUnreg 3; ESend (mkPkt 11 5) true; ESend (mkPkt 12 5) true; ESend (mkPkt 13 5) true] ++ k 20 ++ [UPop 1; UDtor] ++ k 10 ++ [UStep true].
Example session_result :
  (let '(s, es) := run 2 false init session in (es, app s)) =
  ([Registered 2 70; Registered 3 71; Accepted (mkPkt 1 2); Accepted (mkPkt 2 9); Refused (mkPkt 3 3); DropOut (mkPkt 1 2); Accepted (mkPkt 4 2); FlushOk;
    Took (mkPkt 2 9); Took (mkPkt 4 2); NoStream (mkPkt 2 9); Handled (mkPkt 4 2) 70; Unregistered 3; Sent (mkPkt 11 5); Sent (mkPkt 12 5); Sent (mkPkt 13 5);
    Entered (mkPkt 11 5); Entered (mkPkt 12 5); DropIn (mkPkt 11 5); Entered (mkPkt 13 5); Got (mkPkt 12 5); FreeIn (mkPkt 13 5); Ended], AGone).
Proof. vm_compute. reflexivity. Qed.
Example ports_example : map snd (given (run_alloc [0; 1; 0]%nat)) = [2; 4; 6].
Proof. reflexivity. Qed.

Print Assumptions packets_from_application_in_order.
Print Assumptions packets_to_application_in_order.
Print Assumptions packets_go_to_their_stream.
Print Assumptions port_keeps_limits.
Print Assumptions calls_tell_the_queue.
Print Assumptions flush_is_honoured_partial.
Print Assumptions flush_is_honoured_refuted.
Print Assumptions worker_comes_to_rest.
Print Assumptions push_queues_refuted.
Print Assumptions dropped_for_newer_refuted.
Print Assumptions destructor_returns_partial.
Print Assumptions destructor_returns_refuted.
Print Assumptions end_releases_everything.
Print Assumptions port_numbers_distinct.
