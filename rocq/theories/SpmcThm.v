(** The queue with one producer and many consumers, for every schedule of its accesses to shared memory. *)
From Verif Require Import Base SpmcModel SpmcSpec SpmcProof.

(** Whatever the schedule, what happened is a history of a bounded queue that does one operation at a time, in the order of the deciding accesses. *)
Theorem queue_is_linearizable cap get acts s es :
  power_of_two cap -> Forall sane acts -> run cap get init acts = (s, es) -> exists q, legal cap [] es q.
Proof.
  intros P S R. pose proof (run_inv cap get P acts S init [] (inv_init cap get P)) as I. rewrite R in I. exact (il _ _ _ (proj1 I)).
Qed.
(** Nothing is lost, nothing is delivered twice or out of order: what was put in is what was taken out, followed by at most [cap] items. *)
Theorem queue_conserves_items cap get acts s es :
  power_of_two cap -> Forall sane acts -> run cap get init acts = (s, es) ->
  exists q, puts es = gets es ++ q /\ zlen q <= cap.
Proof.
  intros P S R. pose proof (run_inv cap get P acts S init [] (inv_init cap get P)) as I. rewrite R in I. cbn [fst snd app] in I.
  destruct (il _ _ _ (proj1 I)) as (q & L). destruct (queue_is cap get s es q (proj1 I) L) as (B & Q). exists q. split; auto.
  destruct I as [[] _]. lia.
Qed.
(** Each call of a consumer that has returned has one event, in the order of the calls, and the result of the call tells what happened. The calls
    of a consumer between two moments at which it is idle have their events between these moments. *)
Theorem consumer_results_are_true cap get acts s es t :
  power_of_two cap -> Forall sane acts -> run cap get init acts = (s, es) -> cons s t = CIdle ->
  Forall2 explains_pop (cres s t) (by_consumer t es).
Proof.
  intros P S R C. pose proof (run_inv cap get P acts S init [] (inv_init cap get P)) as I. rewrite R in I. cbn [fst snd app] in I.
  destruct (ires _ _ _ (proj1 I) t) as (X & -> & F). rewrite C. cbn. rewrite app_nil_r. exact F.
Qed.
(** The result of each call of the producer is the number of its items that went in, and fewer than all only if that filled the room. *)
Theorem producer_results_are_true cap get acts s es :
  power_of_two cap -> Forall sane acts -> run cap get init acts = (s, es) -> prod s = PIdle ->
  explains get (pres s) (by_producer es).
Proof.
  intros P S R C. pose proof (run_inv cap get P acts S init [] (inv_init cap get P)) as I. rewrite R in I. cbn [fst snd app] in I.
  destruct I as [_ PO]. rewrite C in PO. exact PO.
Qed.
(** The assertion that a reader is never ahead of the writer does not fail. *)
Theorem queue_assertion_holds cap get acts :
  power_of_two cap -> Forall sane acts -> broken (fst (run cap get init acts)) = false.
Proof. intros P S. exact (ib _ _ _ (proj1 (run_inv cap get P acts S init [] (inv_init cap get P)))). Qed.
(** Partial: the accesses are inside of the array if no consumer asks for more than the capacity at once. *)
Theorem queue_accesses_inside_partial cap get acts :
  power_of_two cap -> Forall sane acts -> Forall (small cap) acts -> oob (fst (run cap get init acts)) = false.
Proof.
  intros P S M. refine (proj1 (run_bounds cap get P acts S M init [] (inv_init cap get P) _)).
  split; auto. intros t. cbn. pose proof (cap_pos cap get P). lia.
Qed.
(** If one does, it may read after the end of the array: it has loaded the index of the readers, and the others go round the array twice. *)
Definition pause_then_read : list act :=
  [CStart 0 (PopMany 8); CStep 0 false] ++
  concat (repeat ([PStart (PushMany [7; 9])] ++ repeat PStep 4 ++ [CStart 1 (PopMany 2)] ++ repeat (CStep 1 false) 8) 3) ++
  repeat (CStep 0 false) 7.
Theorem queue_accesses_inside_refuted :
  power_of_two 2 /\ Forall sane pause_then_read /\ oob (fst (run 2 Some init pause_then_read)) = true.
Proof. split; [exists 1; lia|]. split; [cbn; repeat (constructor; [cbn; first [exact Logic.I|lia]|]); constructor|]. vm_compute. reflexivity. Qed.
(** No call waits for another thread: from whatever point, a consumer that runs alone returns, and so does the producer. *)
Theorem consumer_does_not_wait cap get acts t :
  power_of_two cap -> Forall sane acts ->
  exists n, cons (fst (run cap get (fst (run cap get init acts)) (repeat (CStep t false) n))) t = CIdle.
Proof. intros P S. exact (consumer_ends cap get P _ _ t (run_inv cap get P acts S init [] (inv_init cap get P))). Qed.
Theorem producer_does_not_wait cap get acts :
  exists n, prod (fst (run cap get (fst (run cap get init acts)) (repeat PStep n))) = PIdle.
Proof. apply producer_ends. Qed.

(** Two consumers race for the first item: both read it, one gets it and the other one starts again. *)
Definition race : list act :=
  [PStart (PushMany [10; 20]); PStep; PStep; PStep; CStart 1 TryPop; CStart 2 (PopMany 5)] ++
  repeat (CStep 1 false) 6 ++ repeat (CStep 2 false) 5 ++ [CStep 1 false; CStep 2 false] ++
  [PStart (PushManyKv [30; 31; 32; 33; 34]); PStep; PStep; PStep; PStep; PStep] ++ repeat (CStep 2 false) 12 ++ [CStart 1 TryPop] ++ repeat (CStep 1 false) 8.
Definition even_only (k : Z) : option Z := if Z.even k then Some (k + 100) else None.
Example race_is_sane : power_of_two 4 /\ Forall sane race.
Proof. split; [exists 2; lia|]. cbn. repeat (constructor; [first [exact Logic.I|cbn; lia]|]). constructor. Qed.
Example race_result :
  (let '(s, es) := run 4 even_only init race in ((cons s 1%nat, cons s 2%nat, prod s), cres s 1%nat, cres s 2%nat, pres s, puts es)) =
  ((CIdle, CIdle, PIdle), [(TryPop, [10]); (TryPop, [130])], [(PopMany 5, [20])],
   [(PushMany [10; 20], 2); (PushManyKv [30; 31; 32; 33; 34], 5)], [10; 20; 130; 132; 134]).
Proof. vm_compute. reflexivity. Qed.

Print Assumptions queue_is_linearizable.
Print Assumptions queue_conserves_items.
Print Assumptions consumer_results_are_true.
Print Assumptions producer_results_are_true.
Print Assumptions queue_assertion_holds.
Print Assumptions queue_accesses_inside_partial.
Print Assumptions queue_accesses_inside_refuted.
Print Assumptions consumer_does_not_wait.
Print Assumptions producer_does_not_wait.
