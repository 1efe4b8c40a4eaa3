(** C14: theorems about weak references. *)
From Verif Require Import Base WrefModel WrefSpec WrefProof.

(** Full claim: [forall shared owns sched, wref_start owns -> getref_safe (w_run shared owns sched)].
    It is false of the code, see the three refutations below. Proved: it holds, for any number of
    threads and every interleaving, when the target's counter is already in shared mode and no two
    getref calls on the same weak reference overlap. *)
Theorem wref_getref_alive_partial : forall owns sched,
  wref_start owns -> serial_from (w_init true owns) sched -> getref_safe (w_run true owns sched).
Proof.
  intros owns sched [H1 H2] Hs. destruct (w_exec_ok sched _ _ (w_init_inv owns H1 H2) Hs) as (s & v & E & I).
  exists s. split; [exact E|]. split.
  - intros r d Hr ->. pose proof (wi_ret I _ Hr). destruct d; congruence.
  - intros th Hi Ho. assert (Hd : ws_dying s = false).
    { destruct (ws_dying s) eqn:Ed; [|reflexivity]. pose proof (proj1 (wi_dead I) Ed) as Hz. exfalso.
      pose proof (wi_own I) as Hown. rewrite Forall_forall in Hown.
      apply In_nth_error in Hi. destruct Hi as [t Ht].
      assert (wt_refs th <= w_refs s).
      { eapply (zsum_ge_nth_in wt_refs); [|exact Ht]. intros a Ha. destruct (Hown a Ha) as (X & _). unfold wt_refs. destruct (w_pc a); lia. }
      unfold wt_refs in *. destruct (w_pc th); lia. }
    destruct (wi_alive I Hd) as (_ & _ & Hf & _). auto.
Qed.
Print Assumptions wref_getref_alive_partial.

(** In the same runs, between two getref calls the counter of the target is exact: one less than
    the references owned by the threads, so a successful getref has added one. *)
Theorem wref_getref_counts_partial : forall owns sched s,
  wref_start owns -> serial_from (w_init true owns) sched -> w_run true owns sched = Some s ->
  (forall th, In th (ws_thr s) -> w_pc th = PIdle) ->
  ws_cnt s = zsum w_own (ws_thr s) - 1.
Proof.
  intros owns sched s [H1 H2] Hs E Hq. destruct (w_exec_ok sched _ _ (w_init_inv owns H1 H2) Hs) as (s' & v & E' & I).
  unfold w_run in E. rewrite E in E'. injection E' as <-.
  rewrite (wi_cnt I). replace (zsum ut (ws_thr s)) with 0.
  2:{ symmetry. apply zsum_zero. intros x Hx. unfold ut. rewrite (Hq x Hx). reflexivity. }
  assert (w_refs s = zsum w_own (ws_thr s)); [|lia]. unfold w_refs. clear - Hq.
  induction (ws_thr s) as [|h l IH]; cbn; [reflexivity|]. rewrite IH by (intros; apply Hq; right; assumption).
  unfold wt_refs. rewrite (Hq h (or_introl eq_refl)). lia.
Qed.
Print Assumptions wref_getref_counts_partial.

(** Not in general, 1: a target whose counter is still in unshared mode. Thread 0 drops the only
    reference and is about to invalidate the weak reference; a single getref by thread 1 returns
    the dying target, and later owns a reference to released memory. *)
Theorem wref_unshared_refuted : exists sched s,
  w_run false [1; 0] sched = Some s /\ In (true, true) (ws_ret s) /\ ws_freed s = true /\
  exists th, In th (ws_thr s) /\ 0 < w_own th.
Proof.
  exists [(0%nat, ODecref, false); (0%nat, ODecref, false); (1%nat, OGetref, false); (1%nat, OGetref, false);
          (1%nat, OGetref, false); (1%nat, OGetref, false); (1%nat, OGetref, false); (0%nat, ODecref, false); (0%nat, ODecref, false)].
  eexists. split; [vm_compute; reflexivity|]. cbn. split; [auto|]. split; [reflexivity|].
  exists (mkWthr 1 PIdle). cbn. split; [auto|lia].
Qed.
Print Assumptions wref_unshared_refuted.

(** Not in general, 2: shared mode, two overlapping getref calls while the target is dying. The
    failing tryincref of one transiently raises the counter to 0, the other sees 0 and takes the
    dying target. *)
Theorem wref_overlap_refuted : exists sched s,
  w_run true [1; 0; 0] sched = Some s /\ In (true, true) (ws_ret s).
Proof.
  exists ([(0%nat, ODecref, false); (0%nat, ODecref, false); (0%nat, ODecref, false);
          (1%nat, OGetref, false); (2%nat, OGetref, false); (1%nat, OGetref, false); (2%nat, OGetref, false);
          (1%nat, OGetref, false); (2%nat, OGetref, false); (2%nat, OGetref, false)]).
  eexists. split; [vm_compute; reflexivity|]. cbn. auto.
Qed.
Print Assumptions wref_overlap_refuted.

(** Not in general, 3: two overlapping getref calls after the weak reference was invalidated and
    the target released: the second one finds the counter at 1 and touches the target. *)
Theorem wref_after_release_refuted : exists sched, w_run true [1; 0; 0] sched = None.
Proof.
  exists ([(0%nat, ODecref, false); (0%nat, ODecref, false); (0%nat, ODecref, false); (0%nat, ODecref, false); (0%nat, ODecref, false);
          (1%nat, OGetref, false); (2%nat, OGetref, false); (2%nat, OGetref, false)]).
  vm_compute. reflexivity.
Qed.
Print Assumptions wref_after_release_refuted.

(** Three threads: a getref that succeeds, one that runs while the last reference is dropped and
    fails, and one after the release. *)
Example wref_ex :
  let g := (1%nat, OGetref, false) in let d0 := (0%nat, ODecref, false) in let d1 := (1%nat, ODecref, false) in
  let sched := [g; g; g; g; d0; d0; d1; d0; d1; d1; (2%nat, OGetref, false); d1; (2%nat, OGetref, false); (2%nat, OGetref, false);
                (2%nat, OGetref, false); (2%nat, OGetref, false); d1; d1; g; g] in
  wref_start [1; 0; 0] /\ serial_from (w_init true [1; 0; 0]) sched /\
  exists s, w_run true [1; 0; 0] sched = Some s /\ ws_ret s = [(true, false); (false, true); (false, true)] /\ ws_freed s = true.
Proof.
  cbv zeta. split; [split; [repeat constructor; lia|cbn; lia]|]. split.
  - cbn -[w_init w_step]. repeat (intros ? H; vm_compute in H; injection H as <-; split; [reflexivity|]). exact Logic.I.
  - eexists. split; [vm_compute; reflexivity|]. split; reflexivity.
Qed.
