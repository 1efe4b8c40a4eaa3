(** C16: the work queue is first-in first-out and loses nothing. *)
From Coq Require Import Permutation.
From Verif Require Import Base QueueModel QueueSpec QueueProof.

(** Every history of calls by any number of threads, with any wake-ups, runs without a failed assertion
    or an access out of bounds, and its results are those of a plain list, for every size of the
    circular buffer. *)
Theorem queue_is_fifo : forall capacity ops, 0 <= capacity < 2147483648 -> Forall valid ops ->
  exists w tr m c, run (world0 capacity) ops = Some (w, tr) /\ fifo tr m c.
Proof.
  intros cap os C V. destruct (world0_ok cap C) as [I0 _]. destruct (run_ok os _ _ I0 V) as (w & tr & R & [_ _ _ F] & _).
  eexists _, _, _, _. split; [exact R|exact F].
Qed.
Print Assumptions queue_is_fifo.

(** Without removals by predicate the items leave in the order in which they were accepted; with them,
    still each exactly once. *)
Theorem queue_order : forall capacity ops w tr, 0 <= capacity < 2147483648 -> Forall valid ops -> run (world0 capacity) ops = Some (w, tr) ->
  exists rest, Permutation (accepted tr) (delivered tr ++ rest) /\
    ((forall p, ~ In (Match p) ops) -> accepted tr = delivered tr ++ rest).
Proof.
  intros cap os w tr C V R. destruct (world0_ok cap C) as [I0 _]. destruct (run_ok os _ _ I0 V) as (w' & tr' & R' & [_ _ _ F] & _).
  rewrite R in R'. injection R' as <- <-. cbn [app] in F. exists (qabs (w_q w)). split; [eapply fifo_perm; exact F|]. intros N. eapply fifo_order; [exact F|].
  clear - N R. intros p r. revert N R. generalize (world0 cap) as w0. revert tr. induction os as [|o os IH]; intros tr w0 N R; cbn [run] in R; [injection R as <- <-; auto|].
  destruct (step w0 o) as [[w1 b]|] eqn:E; [|discriminate]. destruct (run w1 os) as [[w2 tr2]|] eqn:R2; [|discriminate]. injection R as <- <-. cbn [map snd]. intros [X|X].
  - subst b. destruct o as [x sg k|n m|[|] i|q|n|n|k|k|]; cbn [step] in E; try discriminate.
    + destruct (q_put (w_q w0) x sg) as [[? ?] ?]. discriminate.
    + unfold consume in E. destruct (_ =? 0); [destruct m; discriminate|]. destruct (q_extract _ _) as [[? ?]|]; discriminate.
    + destruct (nth_error _ _) as [[n m]|]; [|discriminate]. unfold consume in E. destruct (_ =? 0); [destruct m; discriminate|]. destruct (q_extract _ _) as [[? ?]|]; discriminate.
    + destruct (nth_error _ _) as [[n m]|]; [|discriminate]. unfold consume in E. destruct (_ =? 0); [destruct m; discriminate|]. destruct (q_extract _ _) as [[? ?]|]; discriminate.
    + apply (N q). left. reflexivity.
  - apply (IH tr2 w1); [intros q Hq; apply (N q); right; exact Hq|exact R2|exact X].
Qed.
Print Assumptions queue_order.

(** No wake-up is lost: unless batching is switched on, in every reachable state in which a consumer
    sleeps, at least as many other consumers have been woken and are about to run as there are items.
    (So a consumer never sleeps on a queue with items while nobody is on the way to take them.) *)
Theorem queue_no_lost_wakeup : forall capacity ops w tr, 0 <= capacity < 2147483648 -> Forall valid ops -> (forall n, ~ In (SetQlen n) ops) ->
  run (world0 capacity) ops = Some (w, tr) -> exists m c, fifo tr m c /\
    (w_wait w <> [] -> (length c <= length (w_woken w))%nat).
Proof.
  intros cap os w tr C V N R. destruct (world0_ok cap C) as [I0 S0]. destruct (run_ok os _ _ I0 V) as (w' & tr' & R' & [_ _ _ F] & S).
  rewrite R in R'. injection R' as <- <-. eexists _, _. split; [exact F|]. apply S; [|exact S0]. apply Forall_forall. intros o Ho n ->. exact (N n Ho).
Qed.
Print Assumptions queue_no_lost_wakeup.

(** With batching (a signal for every k-th item) an item can wait while its consumer sleeps, until the
    producer calls the pump function. *)
Theorem batching_needs_pump_refuted : exists ops w tr, Forall valid ops /\ run (world0 4) ops = Some (w, tr) /\
  w_wait w <> [] /\ w_woken w = [] /\ accepted tr = [7] /\ delivered tr = [].
Proof.
  exists [SetQlen 2; Get 1 MWait; Put 7 false 0]. eexists _, _. split; [repeat constructor; lia|]. split; [vm_compute; reflexivity|]. split; [discriminate|]. auto.
Qed.
Print Assumptions batching_needs_pump_refuted.

(** Across the boundary between a buffer of two and the list, with a removal by predicate, a batch, a
    sleeping consumer, a limit. *)
Definition q_ex : list op :=
  [Get 3 MWait; Put 1 false 0; Put 2 false 0; Put 3 false 0; Put 4 false 0; Match (fun x => x =? 2); Resume true 0; Put 5 false 0; SetMax 2; Put 6 true 0; Put 7 false 0; Get 1 MWake; Len].
Example queue_ex : Forall valid q_ex /\ option_map (fun r => map snd (snd r)) (run (world0 2) q_ex) =
  Some [OSleep; OPut 1 true; OPut 2 true; OPut 3 true; OPut 4 true; OMatch (fun x => x =? 2) (Some 2); OGot 3 [1; 3; 4]; OPut 5 true; ONone; OPut 6 true; OPut 7 false; OGot 1 [5]; OLen 1].
Proof. split; [repeat constructor; cbn; lia|]. vm_compute. reflexivity. Qed.
