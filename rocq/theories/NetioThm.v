(** C44: the sender thread. *)
From Verif Require Import Base NetioModel NetioSpec NetioProof.

(** The calls of sendto are those of the requests made before the shut-down, request after request, each with its own
    socket, data and destination; each request is given up only as [finished] says and then released at once; and a thread
    that waits for work, or has ended, has served all of them. *)
Theorem sender_serves_in_order : forall os s tr, run start os = (s, tr) ->
  exists served_ now waiting ws part,
    requests os = served_ ++ now ++ waiting /\ Forall2 served served_ ws /\ work tr = concat ws ++ part /\
    (now = [] /\ part = [] \/ exists i l, now = [i] /\ part = calls i l /\ under_way (i_nsend i) l) /\
    ((at_ s = Asking /\ q s = [] \/ at_ s = Gone) -> now = [] /\ waiting = []).
Proof.
  intros os s tr R. destruct (inv_run _ _ _ R) as (done & cur & ws & part & RQ & F & W & C & _).
  exists done, cur, (upto (pend s)), ws, part. split; [exact RQ|]. split; [exact F|]. split; [exact W|]. split.
  - destruct (at_ s); cbn [cur_ok] in C; try (left; exact C). right. destruct C as (l0 & A & B & U & _). exists i, l0. auto.
  - intros [[A Q]|A]; unfold pend; rewrite A in *; cbn [cur_ok] in C; [rewrite Q|]; (split; [apply C|reflexivity]).
Qed.
Print Assumptions sender_serves_in_order.

(** No request is sent more often than asked for, retried more than three times, or tried more than copies + 3 times. *)
Theorem copies_and_retries_bounded : forall n l, finished n l \/ under_way n l ->
  count good l <= n /\ count transient l <= 4 /\ Z.of_nat (length l) <= n + 3 /\
  (under_way n l -> count transient l <= 3).
Proof.
  intros n l [F|U].
  - destruct (finished_bounds _ _ F) as (A & B & C). split; [exact A|]. split; [exact B|]. split; [exact C|]. intros (_ & _ & T). exact T.
  - pose proof U as (F & G & T). split; [lia|]. split; [lia|]. split; [|intros _; exact T].
    assert (X : finished n (l ++ [Efail])) by (exists l, Efail; split; [reflexivity|]; split; [exact U|]; right; left; split; reflexivity).
    apply finished_bounds in X. rewrite app_length in X. cbn [length] in X. lia.
Qed.
Print Assumptions copies_and_retries_bounded.

(** However sending goes, the thread runs out of work after finitely many steps: it waits on an empty queue or has ended. *)
Theorem sender_settles : forall os s tr, run start os = (s, tr) -> exists k, forall l, (k <= length l)%nat -> Forall (fun p => (0 < fst p)%nat) l ->
  let s' := fst (run s (map (fun p => Thread (fst p) (snd p)) l)) in at_ s' = Asking /\ q s' = [] \/ at_ s' = Gone.
Proof.
  intros os s tr R. exists (left_ s). intros l L F s'. pose proof (settles _ _ _ _ l (inv_run _ _ _ R) (le_n _) L F) as Q. fold s' in Q.
  unfold quiet in Q. destruct (at_ s'); try discriminate; [left|right; reflexivity]. destruct (q s'); [split; reflexivity|discriminate].
Qed.
Print Assumptions sender_settles.

(** An example: a short packet in double mode, one retry, then an item given up after four errors, one more, stop. *)
Definition ex_os : list op :=
  [SendPkt true 5 [1; 2] 77 true; SendTo 6 [3] 78 true; SendPkt true 5 [9] 77 false; Thread 1 Efail; Thread 0 Efail; Thread 0 (Ok 2); Thread 0 Eperm; Thread 0 (Ok 2);
   Shutdown; SendTo 7 [4] 79 true; Thread 0 Efail; Thread 2 Efail; Thread 0 Efail; Thread 0 Enobufs; Thread 0 Enobufs; Thread 0 Eperm; Thread 0 Eperm; Thread 0 Efail].
Example sender_ex : exists s tr, run start ex_os = (s, tr) /\ at_ s = Gone /\ requests ex_os = [mkItem 2 5 [1; 2] 77; mkItem 1 6 [3] 78] /\
  work tr = [ECall 5 [1; 2] 77 (Ok 2); ECall 5 [1; 2] 77 Eperm; ECall 5 [1; 2] 77 (Ok 2); EFree (mkItem 2 5 [1; 2] 77);
             ECall 6 [3] 78 Enobufs; ECall 6 [3] 78 Enobufs; ECall 6 [3] 78 Eperm; ECall 6 [3] 78 Eperm; EFree (mkItem 1 6 [3] 78)].
Proof. eexists _, _. split; [vm_compute; reflexivity|]. repeat split. Qed.

(** Not everything is released: what is queued behind the stop signal when the thread takes it is lost. *)
Theorem released_after_stop_refuted : exists os s tr i, run start os = (s, tr) /\ at_ s = Gone /\ q s = [] /\ In (EAccept i) tr /\ ~ In (EFree i) tr.
Proof.
  exists [Shutdown; SendTo 7 [4] 79 true; Thread 2 Efail; Thread 0 Efail]. eexists _, _, (mkItem 1 7 [4] 79). split; [vm_compute; reflexivity|].
  split; [reflexivity|]. split; [reflexivity|]. split; [right; left; reflexivity|]. cbn. intuition discriminate.
Qed.
Print Assumptions released_after_stop_refuted.
