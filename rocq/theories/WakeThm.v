(** C41: wake-ups are never lost. *)
From Verif Require Import Base WakeModel WakeSpec WakeProof.

(** A thread that sleeps without a deadline, and has not been signalled, owes nothing. *)
Theorem wakeups_not_lost : forall e os s tr, 0 <= ival e -> run e start os = Some (s, tr) -> at_ s = Sleep -> woken s = false -> all_delivered tr.
Proof. intros e os s tr P R. apply (inv_delivered e). exact (inv_run e os P _ _ R). Qed.
Print Assumptions wakeups_not_lost.

(** A thread that sleeps with a deadline wakes when the interval since the last wake-up is over. *)
Theorem deadline_is_set : forall e os s tr, 0 <= ival e -> run e start os = Some (s, tr) -> at_ s = SleepT -> wake_at s = last s + ival e /\ 0 < last s.
Proof.
  intros e os s tr P R A. destruct (inv_run e os P _ _ R) as (_ & _ & _ & B & _ & B2 & _). rewrite A in *. destruct B as (_ & _ & _ & B). specialize (B (B2 eq_refl)). tauto.
Qed.
Print Assumptions deadline_is_set.

(** Whatever else is requested meanwhile, four steps of the thread after that interval deliver all nudges made so far;
    three steps of a thread that is just writing bring it to the point where that holds. *)
Theorem wakeups_delivered : forall e os s tr more s' tr', 0 <= ival e -> (forall t, bad e t = false) -> run e start os = Some (s, tr) ->
  running s = true -> at_ s = Top \/ at_ s = Sleep \/ at_ s = SleepT ->
  Forall (runs_after (last s + ival e)) more -> (4 <= count_work more)%nat -> run e s more = Some (s', tr') -> delivered_upto (nudges tr) (tr ++ tr').
Proof.
  intros e os s tr more s' tr' P BD R RN A F C R2. pose proof (inv_run e os P _ _ R) as I0.
  destruct (ph_start e s tr (last s + ival e) P BD I0 RN) as (k & K & H); [intuition congruence|destruct A as [-> |[-> | ->]]; reflexivity|lia|].
  assert (L : nudges tr <= nudges tr) by lia. assert (K2 : (k <= count_work more)%nat) by lia.
  destruct (ph_run _ _ e more P BD k s tr s' tr' I0 L H F K2 R2) as [DR DC].
  intros a b E N. destruct (DR a b E N) as (t & v & X1 & X2). destruct (DC a b E N) as (t' & v' & Y1 & Y2). exists t, v, t', v'. auto.
Qed.
Print Assumptions wakeups_delivered.
Theorem writing_is_short : forall e s os s' tr, run e s os = Some (s', tr) ->
  at_ s = Write1 /\ count_work os = 3%nat \/ at_ s = Write2 /\ count_work os = 2%nat \/ at_ s = Stamp /\ count_work os = 1%nat -> at_ s' = Top.
Proof. intros e s os s' tr R H. apply (writing e os s s' tr R); destruct H as [[-> C]|[[-> C]|[-> C]]]; cbn; lia. Qed.
Print Assumptions writing_is_short.

(** Wake-ups are at least the interval apart, each is for a new nudge, and both threads are woken with the same numbers. *)
Theorem wakeups_spaced : forall e os s tr, 0 <= ival e -> clock_from 1 os -> run e start os = Some (s, tr) ->
  spaced (ival e) (rtp_wakes tr) /\ spaced (ival e) (rtcp_wakes tr) /\
  (map snd (rtp_wakes tr) = map snd (rtcp_wakes tr) \/ exists v, at_ s = Write2 /\ map snd (rtp_wakes tr) = map snd (rtcp_wakes tr) ++ [v]).
Proof.
  intros e os s tr P CL R. destruct (sp_run e os P 1 start [] s tr (inv0 e) (sp0 e) CL R) as (t1 & A & B & _ & _ & M). split; [exact A|]. split; [exact B|]. cbn [app] in M.
  destruct (at_ s); try (left; apply M). right. exists (l_req s). split; [reflexivity|apply M].
Qed.
Print Assumptions wakeups_spaced.

(** The destructor does not wait for ever: once the flag is down and a nudge was made, five steps end the thread. *)
Theorem shutdown_ends : forall e s os s' tr, run e s os = Some (s', tr) -> running s = false -> woken s = true -> (5 <= count_work os)%nat -> at_ s' = Ended.
Proof. intros e s os s' tr R RN W C. apply (ends e os s s' tr R RN); [auto|]. destruct (at_ s); cbn; lia. Qed.
Print Assumptions shutdown_ends.
(** With fewer than 2^31 nudges nothing overflows. *)
Theorem no_overflow : forall e os, count_nudges os < 2147483648 -> exists s tr, run e start os = Some (s, tr).
Proof. intros e os H. apply run_total. exact H. Qed.
Print Assumptions no_overflow.
Theorem overflow_refuted : forall e s, requested s = 2147483647 -> at_ s = Sleep -> run e s [Nudge] = None.
Proof. intros e s R A. cbn. unfold nudge. rewrite A, R. reflexivity. Qed.
Print Assumptions overflow_refuted.

(** An example: a wake-up, a second nudge within the interval, and a third that does not delay it. *)
Definition ex_env : env := mkEnv 1000 (fun _ => false).
Definition ex_os : list op :=
  [Work 10 10 false; Nudge; Work 11 11 false; Work 12 12 false; Work 13 13 false; Work 14 14 false; Work 15 15 false;
   Nudge; Work 20 20 false; Work 21 21 false; Nudge; Work 22 22 false; Work 23 23 true].
Example wake_ex : exists s tr, run ex_env start ex_os = Some (s, tr) /\ at_ s = SleepT /\ wake_at s = 1014 /\ tr = [ENudge; ERtp 12 1; ERtcp 13 1; ENudge; ENudge] /\
  exists s' tr', run ex_env s [Work 1014 1014 false; Nudge; Work 1015 1015 false; Work 1016 1016 false; Work 1017 1017 false] = Some (s', tr') /\ tr' = [ENudge; ERtp 1015 3; ERtcp 1016 3] /\
    Forall (runs_after (last s + 1000)) [Work 1014 1014 false; Nudge; Work 1015 1015 false; Work 1016 1016 false; Work 1017 1017 false].
Proof. eexists _, _. split; [vm_compute; reflexivity|]. repeat (split; [reflexivity|]). eexists _, _. split; [vm_compute; reflexivity|]. split; [reflexivity|]. repeat constructor; vm_compute; discriminate. Qed.
Example sleep_ex : exists s tr, run ex_env start [Work 10 10 false; Nudge; Work 11 11 false; Work 12 12 false; Work 13 13 false; Work 14 14 false; Work 15 15 false] = Some (s, tr) /\
  at_ s = Sleep /\ woken s = false /\ tr = [ENudge; ERtp 12 1; ERtcp 13 1].
Proof. eexists _, _. split; [vm_compute; reflexivity|]. repeat split. Qed.

(** Not in time when the machine was suspended: the deadline is taken from a clock that counts the suspended time, and
    waited for on one that does not. One hour of suspension delays the wake-up by one hour. *)
Definition susp_os : list op := [Nudge; Work 11 11 false; Work 12 12 false; Work 13 13 false; Work 3600000014 14 false; Nudge; Work 3600000015 15 false; Work 3600000016 16 false].
Theorem suspended_clock_refuted : exists s tr, run ex_env start susp_os = Some (s, tr) /\ running s = true /\ at_ s = SleepT /\ clock_from 1 susp_os /\
  forall more s' tr', Forall (fun o => match o with Work now mono sp => now < 7200000000 /\ mono = now - 3600000000 /\ sp = false | _ => False end) more -> run ex_env s more = Some (s', tr') -> tr' = [] /\ s' = s.
Proof.
  eexists _, _. split; [vm_compute; reflexivity|]. split; [reflexivity|]. split; [reflexivity|]. split; [cbn; lia|].
  induction more as [|o more IH]; intros s' tr' F R; cbn [run] in R; [injection R as <- <-; split; reflexivity|].
  pose proof (Forall_inv F) as F0. destruct o as [| |now mono sp]; try contradiction. destruct F0 as (L & -> & ->). cbn [step] in R. unfold work in R. cbn [at_ wake_at woken orb] in R.
  destruct (Z.leb_spec 3600001014 (now - 3600000000)); [lia|]. match type of R with match (match run ?e ?s ?m with _ => _ end) with _ => _ end = _ => idtac | match run ?e ?s ?m with _ => _ end = _ => destruct (run e s m) as [[s2 t2]|] eqn:R2 end; [|discriminate].
  destruct (IH _ _ (Forall_inv_tail F) eq_refl) as [-> ->]. injection R as <- <-. split; reflexivity.
Qed.
Print Assumptions suspended_clock_refuted.

(** Not when the deadline cannot be expressed: the thread spins with the mutex held, nothing is delivered, nudges block. *)
Theorem invalid_deadline_refuted : let e := mkEnv 1000 (fun t => t =? 1014) in
  exists s tr, run e start (ex_os) = Some (s, tr) /\ ~ all_delivered tr /\
  forall more s' tr', Forall (fun o => o <> Cease) more -> run e s more = Some (s', tr') -> tr' = [] /\ s' = s.
Proof.
  intros e. eexists _, _. split; [vm_compute; reflexivity|]. split.
  - intros H. destruct (H [ENudge; ERtp 12 1; ERtcp 13 1] [] eq_refl) as (t & v & t' & v' & [] & _).
  - induction more as [|o more IH]; intros s' tr' F R; cbn [run] in R; [injection R as <- <-; split; reflexivity|].
    pose proof (Forall_inv F) as F0. destruct o as [| |now mono sp]; cbn [step] in R; [|congruence|]; unfold nudge, work in R; cbn [at_ running] in R;
    match type of R with match run ?e ?s ?m with _ => _ end = _ => destruct (run e s m) as [[s2 t2]|] eqn:R2 end; try discriminate;
    destruct (IH _ _ (Forall_inv_tail F) eq_refl) as [-> ->]; injection R as <- <-; split; reflexivity.
Qed.
Print Assumptions invalid_deadline_refuted.
