(** C13: theorems about reference counting. *)
From Verif Require Import Base RefcntModel RefcntSpec RefcntProof.

(** For any number of threads and every interleaving of fewer than 2^31-1 accesses: no released
    object is touched; a referenced object is intact (no destructor has run and none is about
    to); the destructors that ran are the most recently attached ones, newest first, each once;
    an object without references has had all its destructors run, or a thread is running them. *)
Theorem refcount_destroys_once_lifo : forall nthreads sched,
  Z.of_nat (length sched) < 2147483647 ->
  exists s, rc_run nthreads sched = Some s /\
  forall p x, nth_error (r_obj s) p = Some x ->
    0 <= refs s p /\
    (0 < refs s p -> o_run x = [] /\ o_freed x = false /\ ~ destroying s p) /\
    (exists rest, rev (o_att x) = o_run x ++ rest) /\
    (refs s p = 0 -> o_run x = rev (o_att x) \/ destroying s p).
Proof.
  intros n sched H. destruct (exec_ok sched 0 _ (init_inv n)) as (s & E & I); [lia|].
  exists s. split; [exact E|]. intros p x Hx. eapply final_ok; eassumption.
Qed.
Print Assumptions refcount_destroys_once_lifo.

(** When every thread has finished its call, each object is either referenced and intact or
    completely destroyed. *)
Theorem refcount_quiescent : forall nthreads sched,
  Z.of_nat (length sched) < 2147483647 ->
  exists s, rc_run nthreads sched = Some s /\
  (quiescent s -> forall p x, nth_error (r_obj s) p = Some x ->
     (0 < refs s p /\ o_run x = [] /\ o_freed x = false) \/ (refs s p = 0 /\ o_run x = rev (o_att x))).
Proof.
  intros n sched H. destruct (refcount_destroys_once_lifo n sched H) as (s & E & P).
  exists s. split; [exact E|]. intros Q p x Hx. destruct (P p x Hx) as (H0 & H1 & _ & H2).
  destruct (Z.eq_dec (refs s p) 0) as [Ez|N].
  - right. split; [exact Ez|]. destruct (H2 Ez) as [|(th & Hi & Hd)]; [assumption|].
    destruct (Q th Hi) as [Q1 Q2]. rewrite Q1, Q2 in Hd. destruct Hd as [Hd|[i []]]. discriminate.
  - left. destruct H1 as (A & B & _); [lia|]. split; [lia|]. auto.
Qed.
Print Assumptions refcount_quiescent.

(** Two threads: thread 0 creates object 0 and object 1, attaches a destructor and object 1 to
    object 0, shares object 0 with thread 1; both drop it at the same time, interleaved. *)
Definition refcnt_ex_sched : list (nat * rop) :=
  let t0 := (0%nat, ODecref 0) in let t1 := (1%nat, ODecref 0) in
  [(0%nat, ONew (KDtor 7)); (0%nat, ONew KPlain); (0%nat, OAttach 0 8); t0; (0%nat, OAttachRc 0 1); t0;
   (0%nat, OIncref 0); t0; t0; (0%nat, OGive 0 1); t0; t1; t0; t1; t1; t0; t1; t1; t1; t1; t1; t1; t1; t1; t1; t1; t1; t1; t1; t0; t0; t0; t0; t0; t0; t0; t0; t0; t0; t0; t0].
Example refcount_ex :
  exists s, rc_run 2 refcnt_ex_sched = Some s /\ quiescent s /\
    map o_att (r_obj s) = [[DFree; DFun 7; DFun 8; DRc 1]; [DFree]] /\
    map o_run (r_obj s) = [[DRc 1; DFun 8; DFun 7; DFree]; [DFree]] /\ map o_freed (r_obj s) = [true; true].
Proof.
  eexists. split; [vm_compute; reflexivity|]. split; [|vm_compute; auto].
  intros th H. cbn in H. destruct H as [<-|[<-|[]]]; split; reflexivity.
Qed.
