(** C17: timed tasks never fire early and a finished or cancelled task never fires again. *)
From Verif Require Import Base TimedModel TimedSpec TimedProof.

(** In every interleaving of schedules, cancels, a shutdown and the steps of the timer thread, with any
    clock readings, every task follows its life cycle. *)
Theorem every_task_lives : forall ops id, exists st, lives id (snd (run timed0 ops)) st.
Proof. exact run_lives. Qed.
Print Assumptions every_task_lives.

(** In particular: a callback is called only at or after the time it was first due; *)
Theorem never_early : forall ops tr1 tr2 id t, snd (run timed0 ops) = tr1 ++ OFire id t :: tr2 ->
  exists off now, In (OSched id off now) tr1 /\ now + off <= t.
Proof.
  intros os tr1 tr2 id t E. destruct (run_lives os id) as [st L]. rewrite E in L. change (OFire id t :: tr2) with ([OFire id t] ++ tr2) in L. rewrite app_assoc in L.
  apply lives_prefix in L. destruct L as [st1 L]. apply lives_snoc in L. destruct L as (s0 & L & H). destruct (lives_born _ _ _ L) as [B _].
  destruct H as [[N ->]|[(a1&a2&Q&E'&->)|[(a1&a2&a3&Q&E'&Hd&->)|[(a1&a2&a3&a4&Q&E'&Hk&Hm&->)|[(a1&a2&a3&Q&E'&Hm&->)|[(a1&a2&a3&Q&E'&->)|[(a1&a2&Hb&E'&->)|[(Q&->&Hn)|(a1&Q&->&Hn)]]]]]]]]; try discriminate.
  - exfalso. apply N. reflexivity.
  - injection Q as <-. destruct (B _ _ E') as (now & A & C). exists a2, now. split; [exact A|lia].
  - exfalso. destruct Hb; discriminate.
Qed.
Print Assumptions never_early.

(** a callback that returned without asking for more, and a successful cancel, are the last of a task:
    it never runs again, and it is not cancelled (and its object not released) a second time; *)
Theorem last_is_last : forall ops tr1 tr2 id b, snd (run timed0 ops) = tr1 ++ b :: tr2 ->
  b = OEnd id \/ b = OCancel id true \/ b = ODrain id ->
  (forall t, ~ In (OFire id t) tr2) /\ ~ In (OEnd id) tr2 /\ ~ In (OCancel id true) tr2 /\ ~ In (ODrain id) tr2.
Proof.
  intros os tr1 tr2 id b E Hb. destruct (run_lives os id) as [st L]. rewrite E in L. change (b :: tr2) with ([b] ++ tr2) in L. rewrite app_assoc in L.
  destruct (lives_prefix _ _ _ _ L) as [st1 L1].
  assert (st1 = Finished) as ->.
  { apply lives_snoc in L1. destruct L1 as (s0 & _ & H).
    destruct H as [[N ->]|[(a1&a2&Q&E'&->)|[(a1&a2&a3&Q&E'&Hd&->)|[(a1&a2&a3&a4&Q&E'&Hk&Hm&->)|[(a1&a2&a3&Q&E'&Hm&->)|[(a1&a2&a3&Q&E'&->)|[(a1&a2&Hb'&E'&->)|[(Q&->&Hn)|(a1&Q&->&Hn)]]]]]]]];
      try reflexivity; try (exfalso; destruct Hb as [X|[X|X]]; congruence).
    exfalso. apply N. destruct Hb as [-> |[-> | ->]]; reflexivity. }
  destruct (finished_quiet id tr2 _ _ L1 (or_introl eq_refl) _ L) as (_ & A & B & C & _ & D). auto.
Qed.
Print Assumptions last_is_last.

(** and a task that is due by the time of a round has fired by the end of that round, unless it has been cancelled. *)
Theorem due_tasks_fire : forall ops tr1 tr2 id off now t, snd (run timed0 ops) = tr1 ++ ORound t :: tr2 ->
  In (OSched id off now) tr1 -> now + off <= t ->
  (exists t', In (OFire id t') tr1) \/ In (OCancel id true) tr1 \/ In (ODrain id) tr1.
Proof.
  intros os tr1 tr2 id off now t E Hs Hd. destruct (run_lives os id) as [st L]. rewrite E in L. change (ORound t :: tr2) with ([ORound t] ++ tr2) in L. rewrite app_assoc in L.
  destruct (lives_prefix _ _ _ _ L) as [st1 L1]. apply lives_snoc in L1. destruct L1 as (s0 & L0 & H).
  assert (Dec : forall x y : obs, {x = y} + {x <> y}) by (repeat decide equality).
  destruct (in_dec Dec (OCancel id true) tr1) as [|Nc]; [auto|]. destruct (in_dec Dec (ODrain id) tr1) as [|Nd]; [auto|].
  destruct (existsb (fun b => match b with OFire i _ => i =? id | _ => false end) tr1) eqn:X.
  { apply existsb_exists in X. destruct X as ([]&Hi&Q); try discriminate. left. assert (id0 = id) by lia. subst. eauto. }
  assert (Nf : forall t', ~ In (OFire id t') tr1).
  { intros t' Hi. assert (existsb (fun b => match b with OFire i _ => i =? id | _ => false end) tr1 = true) by (apply existsb_exists; exists (OFire id t'); split; [exact Hi|apply Z.eqb_refl]). congruence. }
  pose proof (lives_waiting id tr1 s0 off now L0 Hs Nf Nc Nd) as ->.
  destruct H as [[N ->]|[(a1&a2&Q&E'&->)|[(a1&a2&a3&Q&E'&Hd'&->)|[(a1&a2&a3&a4&Q&E'&Hk&Hm&->)|[(a1&a2&a3&Q&E'&Hm&->)|[(a1&a2&a3&Q&E'&->)|[(a1&a2&Hb&E'&->)|[(Q&->&Hn)|(a1&Q&->&Hn)]]]]]]]]; try discriminate.
  - exfalso. apply N. exact I.
  - exfalso. destruct Hb; discriminate.
  - injection Q as <-. specialize (Hn _ _ eq_refl). lia.
Qed.
Print Assumptions due_tasks_fire.

(** A cancel that comes while the callback of a periodic task runs fails, and the task goes on. *)
Theorem cancel_during_callback_refuted : exists ops tr1 tr2 id t, snd (run timed0 ops) = tr1 ++ OCancel id false :: tr2 /\
  In (OSched id 10 0) tr1 /\ In (OFire id t) tr2.
Proof.
  exists [Sched 10 0; Begin 10; Fetch; Cancel 0; Return true; Fetch; Begin 20; Fetch].
  exists [OSched 0 10 0; ONone; OFire 0 10], [OMore 0; ORound 10; ONone; OFire 0 20], 0, 20. cbn. auto 10.
Qed.
Print Assumptions cancel_during_callback_refuted.

(** A repeated task with period zero hangs the timer thread: no task ever fires again. *)
Theorem zero_period_hangs_refuted : exists ops, forall more, exists tr, snd (run timed0 (ops ++ more)) = snd (run timed0 ops) ++ tr /\
  forall id t, ~ In (OFire id t) tr.
Proof.
  exists [Sched 0 5; Begin 5; Fetch; Return true]. intros more. cbn.
  assert (G : forall more s, t_st s = THang -> forall id t, ~ In (OFire id t) (snd (run s more))).
  { clear. induction more as [|o more IH]; intros s H id t; cbn; [tauto|].
    assert (K : t_st (fst (step s o)) = THang /\ forall id t, snd (step s o) <> OFire id t).
    { destruct o; cbn [step]; rewrite ?H; try destruct (first_matching _ _) as [[? ?]|]; cbn [fst snd t_st]; (split; [assumption || reflexivity|discriminate]). }
    destruct K as [K1 K2]. destruct (step s o) as [s1 b]. cbn [fst snd] in *. specialize (IH s1 K1 id t). destruct (run s1 more) as [s2 tr]. cbn [snd] in *. intros [X|X]; [exact (K2 _ _ X)|tauto]. }
  eexists. split; [|eapply (G more (mkT [] 1 THang false) eq_refl)]. destruct (run _ more) as [s tr]. reflexivity.
Qed.
Print Assumptions zero_period_hangs_refuted.

(** The shutdown never ends when a task is cancelled between the length check and the get of the drain loop:
    the thread that the shutdown waits for sleeps for ever. *)
Theorem shutdown_hangs_refuted : exists ops, t_st (fst (run timed0 ops)) = TStuck /\
  forall more, t_st (fst (run timed0 (ops ++ more))) = TStuck.
Proof.
  exists [Sched 10 0; Shutdown; Begin 1; Drain; Cancel 0; Drain]. split; [reflexivity|]. intros more.
  assert (G : forall more s, t_st s = TStuck -> t_st (fst (run s more)) = TStuck).
  { clear. induction more as [|o more IH]; intros s H; cbn [run]; [exact H|]. assert (K : t_st (fst (step s o)) = TStuck).
    { destruct o; cbn [step]; rewrite ?H; try destruct (first_matching _ _) as [[? ?]|]; cbn [fst snd t_st]; (assumption || reflexivity). }
    destruct (step s o) as [s1 b]. cbn [fst] in K. specialize (IH s1 K). destruct (run s1 more). exact IH. }
  specialize (G more (mkT [] 1 TStuck true) eq_refl). cbn. destruct (run _ more). exact G.
Qed.
Print Assumptions shutdown_hangs_refuted.

Example timed_ex : snd (run timed0 [Sched 10 0; Sched 25 2; Begin 9; Fetch; Begin 34; Fetch; Return true; Fetch; Return false; Fetch; Cancel 0; Cancel 1; Begin 50; Fetch]) =
  [OSched 0 10 0; OSched 1 25 2; ONone; ORound 9; ONone; OFire 0 34; OMore 0; OFire 1 34; OEnd 1; ORound 34; OCancel 0 true; OCancel 1 false; ONone; ORound 50].
Proof. reflexivity. Qed.
