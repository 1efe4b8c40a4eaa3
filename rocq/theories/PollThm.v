(* C32: the poll table mirrors the live sockets. *)
From Coq Require Import List Arith Lia Bool Permutation.
From Verif Require Import PollModel PollSpec PollProof.
Import ListNotations.

(* Whatever sockets are added, replaced and removed, in whatever order and
   with the polling thread at whatever point of its work, no assertion fails,
   no array is written past its end and the kernel refuses no request, as long
   as memory is there to record a removal and to grow the table. *)
Theorem no_failure : forall os,
  legals init os -> Forall enough os -> exists s, run init os = Ok s.
Proof.
  intros os L M. destruct (run_inv os init inv_init L M) as (s & R & _). eauto.
Qed.
Print Assumptions no_failure.

(* When the polling thread has worked off what it took, the table and the
   kernel's set hold exactly the streams that had a socket at the moment it
   took it, each with the socket it had then, whatever was done to the log in
   the meantime. *)
Theorem sync_mirrors : forall before mid s s',
  legals init (before ++ PSync true :: mid) ->
  Forall enough (before ++ PSync true :: mid) -> Forall not_sync mid ->
  run init before = Ok s ->
  run init (before ++ PSync true :: mid) = Ok s' ->
  cur s' = [] ->
  Permutation (tbl s') (skts s) /\ Permutation (polled s') (map snd (skts s)).
Proof.
  intros before mid s s' L M N R R' C.
  assert (forall os x y, run x os = Ok y -> forall qs, run x (os ++ qs) = run y qs) as RA.
  { induction os as [|o os IH]; intros x y H qs; cbn [run app] in *; [congruence|].
    destruct (step x o); try discriminate; cbn [bindr] in *; eapply IH; eauto. }
  assert (forall os x y, run x os = Ok y -> forall qs, legals x (os ++ qs) ->
            legals x os /\ legals y qs) as LA.
  { induction os as [|o os IH]; intros x y H qs HL; cbn [run app legals] in *.
    - injection H as <-; auto.
    - destruct HL as [H1 H2]. destruct (step x o); try discriminate; cbn [bindr] in *.
      destruct (IH _ _ H _ H2); auto. }
  destruct (LA _ _ _ R _ L) as [L1 [L2 L3]]. cbn [step] in L3.
  apply Forall_app in M; destruct M as [M1 M2]. inversion M2; subst.
  destruct (run_inv before init inv_init L1 M1) as (s0 & R0 & I). rewrite R in R0.
  assert (s0 = s) as -> by congruence.
  rewrite (RA _ _ _ R) in R'. cbn [run step bindr] in R'. cbn [legal] in L2.
  assert (I1 := sync_inv s I L2).
  assert (T := mid_tr mid _ s' I1 L3 H2 N R').
  rewrite C, sync_cur, sync_tbl in T by auto. cbn [tr] in T.
  destruct (run_inv mid _ I1 L3 H2) as (s2 & R2 & I2). rewrite R' in R2.
  assert (s2 = s') as -> by congruence.
  destruct (i_map _ I) as (T0 & E0 & P0). unfold pending in E0; rewrite L2 in E0; cbn in E0.
  assert (T0 = tbl s') as -> by congruence.
  split; auto. eapply perm_trans; [apply (i_polled _ I2)|]. apply Permutation_map; auto.
Qed.
Print Assumptions sync_mirrors.

(* The polling thread always gets there: as many replay steps as there were
   entries, and what is in the log stays for the next time. *)
Theorem sync_completes : forall os s,
  legals init os -> Forall enough os -> run init os = Ok s -> cur s = [] ->
  exists s', run s (PSync true :: repeat PReplay (length (log s))) = Ok s' /\
    cur s' = [] /\ log s' = [] /\ skts s' = skts s /\
    Permutation (tbl s') (skts s) /\ Permutation (polled s') (map snd (skts s)) /\
    Permutation (held s') (map snd (skts s)).
Proof.
  intros os s L M R C.
  destruct (run_inv os init inv_init L M) as (s0 & R0 & I). rewrite R in R0.
  assert (s0 = s) as -> by congruence. cbn [run step bindr].
  assert (I1 := sync_inv s I C).
  assert (log (fst (sync_start s true)) = [] /\ skts (fst (sync_start s true)) = skts s) as [LG SK].
  { unfold sync_start. destruct (log s) eqn:G; [auto|]. destruct (_ <? _); auto. }
  destruct (replays_done (length (log s)) _ I1) as (s' & R' & I' & C' & T' & G' & K');
    [rewrite sync_cur by auto; lia|].
  exists s'. rewrite R'. rewrite LG in G'. rewrite SK in K'.
  destruct (i_map _ I') as (T & E & P). unfold pending in E. rewrite C', G' in E. cbn in E.
  injection E as <-. rewrite K' in P.
  repeat split; auto.
  - eapply perm_trans; [apply (i_polled _ I')|]. apply Permutation_map; auto.
  - eapply perm_trans; [apply (i_held _ I')|]. unfold refs, pending. rewrite C', G'. cbn.
    rewrite app_nil_r. apply Permutation_map; auto.
Qed.
Print Assumptions sync_completes.

(* At every moment the log and the table hold one reference for each socket
   that is polled or waits in the log, and no other: none is destroyed while
   polled, none stays after it left the table. *)
Theorem references_balance : forall os s,
  legals init os -> Forall enough os -> run init os = Ok s ->
  NoDup (held s) /\
  Permutation (held s) (polled s ++ flat_map esock (cur s ++ log s)).
Proof.
  intros os s L M R.
  destruct (run_inv os init inv_init L M) as (s0 & R0 & I). rewrite R in R0.
  assert (s0 = s) as -> by congruence. split.
  - apply (Permutation_NoDup (Permutation_sym (i_held _ I))), I.
  - eapply perm_trans; [apply (i_held _ I)|]. unfold refs, pending.
    apply Permutation_app_tail, Permutation_sym, I.
Qed.
Print Assumptions references_balance.

(* Adding or replacing a socket changes the socket of that stream and of no
   other; it fails only when memory is short, and then changes nothing. *)
Theorem add_or_replace : forall s u k ok other s' b,
  append s u k ok other = Ok (s', b) \/ update s u k ok other = Ok (s', b) ->
  (ok = true -> other = true -> b = true) /\
  forall w, get_skt (skts s') w = if b && (w =? u) then Some k else get_skt (skts s) w.
Proof. apply set_socket. Qed.
Print Assumptions add_or_replace.

(* Removing takes the socket of that stream away, and of no other. *)
Theorem remove_takes_away : forall s u ok other s' b,
  remove s u ok other = Ok (s', b) ->
  (ok = true -> other = true -> b = true) /\
  forall w, get_skt (skts s') w = if w =? u then None else get_skt (skts s) w.
Proof. apply unset_socket. Qed.
Print Assumptions remove_takes_away.

(* "After every synchronisation" is false when the table cannot grow: the log
   is thrown away, and the next removal of a stream it named stops the whole
   program at an assertion. *)
Theorem lost_log_refuted : exists os,
  legals init os /\
  (forall o, In o os -> match o with PSync _ => True | _ => enough o end) /\
  run init os = Assert.
Proof.
  exists [PAppend 1 7 true true; PSync false; PRemove 1 true true; PSync true; PReplay].
  split; [cbn; tauto|]. split; [|vm_compute; reflexivity].
  intros o H; cbn in H; repeat (destruct H as [<-|H]; [cbn; auto|]); destruct H.
Qed.
Print Assumptions lost_log_refuted.

(* And it is false when a removal cannot be recorded: the socket of a stream
   that is gone stays polled after any number of synchronisations. *)
Theorem failed_removal_refuted : exists os s,
  legals init os /\ run init os = Ok s /\ skts s = [] /\ cur s = [] /\ log s = [] /\
  polled s = [7].
Proof.
  exists [PAppend 1 7 true true; PSync true; PReplay; PRemove 1 true false; PSync true].
  eexists. split; [cbn; intuition lia|]. split; [vm_compute; reflexivity|].
  vm_compute; auto.
Qed.
Print Assumptions failed_removal_refuted.

Definition ex_ops : list op :=
  [PAppend 1 7 true true; PAppend 2 8 true true; PSync true; PReplay;
   PUpdate 1 9 true true; PRemove 2 true true; PReplay; PAppend 2 10 true true;
   PSync true; PAppend 3 11 true false; PReplay; PReplay; PReplay].

Example poll_ex : legals init ex_ops /\ Forall enough ex_ops /\
  match run init ex_ops with
  | Ok s => tbl s = [(1, 9); (2, 10)] /\ polled s = [9; 10]
  | _ => False
  end.
Proof.
  split; [vm_compute; intuition lia|]. split; [repeat constructor|]. vm_compute; auto.
Qed.
