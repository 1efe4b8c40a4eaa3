(** C49: announcements on a stream. *)
From Verif Require Import Base PlrModel PlrSpec PlrProof.

(** Whatever commands come, whenever players end and the stream becomes able to send, and however
    the threads interleave, the process does not abort on a processor that is not there. *)
Theorem playing_never_aborts copied os : run copied init os <> Abort.
Proof.
  pose proof (good_run copied os init good_init) as G. intros E. rewrite E in G. exact G.
Qed.
Print Assumptions playing_never_aborts.

(** A player waits only while the stream cannot send: whenever no thread is at work on the stream
    and the stream can send, nothing waits. *)
Theorem nothing_waits_when_sendable copied os s es :
  run copied init os = Go s es -> slock s = LFree -> sendable s = true -> tin s = [].
Proof.
  intros E L S. pose proof (good_run copied os init good_init) as G. rewrite E in G.
  destruct G as (_ & _ & GL & _ & G & _). unfold lock_ok in GL. rewrite L in GL. specialize (GL S).
  destruct G as [G|(u & _ & _ & K & _)]; [exact G|congruence].
Qed.
Print Assumptions nothing_waits_when_sendable.

(** A waiting player starts running when the stream becomes able to send. *)
Theorem waiting_player_starts copied os s es u :
  run copied init os = Go s es -> slock s = LFree -> srv s = VIdle -> In u (tin s) ->
  exists s', run copied s [OSendable true; OMove; OMove] = Go s' [] /\
             In u (tact s') /\ tin s' = [] /\ slock s' = LFree /\ cmd s' = cmd s.
Proof.
  intros E L V W. pose proof (good_run copied os init good_init) as G. rewrite E in G.
  destruct G as (_ & _ & _ & _ & G & _).
  destruct G as [G|(v & A1 & A2 & A3 & A4 & A5)]; [rewrite G in W; destruct W|].
  rewrite A1 in W. destruct W as [->|[]].
  destruct s as [U I Sd D N Ti Ta C V0 L0]. cbn in *. subst.
  unfold mem. cbn. rewrite Nat.eqb_refl. cbn. eexists. split; [reflexivity|]. cbn.
  repeat split; auto.
Qed.
Print Assumptions waiting_player_starts.

(** A packet of an announcement leaves only while the stream can send, ... *)
Theorem packets_only_when_sendable copied os s es o s' ev u :
  run copied init os = Go s es -> step copied s o = Go s' ev -> In (EPacket u) ev -> sendable s = true.
Proof.
  intros _ E H. destruct o; cbn in E; unfold step_cmd, after_stop in E; repeat match type of E with
  | context [match ?d with _ => _ end] => destruct d eqn:?; try discriminate
  end; try (injection E as <- <-; cbn in H; repeat (destruct H as [H|H]; try discriminate; try tauto); auto; fail).
Qed.
Print Assumptions packets_only_when_sendable.

(** ... and when it can a running player sends one in every turn that finds it due. *)
Theorem running_player_sends copied os s es u :
  run copied init os = Go s es -> slock s = LFree -> srv s = VIdle -> sendable s = true -> In u (tact s) ->
  exists s', run copied s [OTurn; OPick u; OSrv] = Go s' [EPacket u] /\ tact s' = tact s.
Proof.
  intros _ L V Sd I. destruct s as [U Ia Sd' D N Ti Ta C V0 L0]. cbn in *. subst.
  assert (M : mem u Ta = true) by (apply existsb_exists; exists u; rewrite Nat.eqb_refl; auto). unfold mem in M. cbn. unfold mem. cbn. rewrite M. cbn.
  eexists. split; reflexivity.
Qed.
Print Assumptions running_player_sends.

(** With no command looking for a player at the moment it is carried from the one table to the
    other: the stream has at most one player when nothing is going on; the media of the other side
    is dropped exactly while there is one; it is the one the last answered command has started; and
    when there was memory to register things the stream counts as playing exactly then.
    Missing from the full statement: the schedules excluded, for which it is false
    ([stopping_is_effective_refuted]). *)
Theorem one_player_partial copied os s es :
  undisturbed copied init os -> run copied init os = Go s es -> quiet s ->
  (players s = [] /\ ~ muted s /\
   ((forall a b, In (OCmd a b) os -> b = true) -> ~ counts_as_playing s)) \/
  (exists u, players s = [u] /\ muted s /\ drops s = 1%nat /\ counts_as_playing s /\
             last_answer None es = Some u).
Proof.
  intros D E (Q1 & Q2 & Q3).
  pose proof (phase_run copied os None false init good_init phase_init D) as P. rewrite E in P.
  destruct P as (_ & P & _). unfold players, muted, counts_as_playing.
  assert (HL : (forall a b, In (OCmd a b) os -> b = true) -> forallb lucky os = true).
  { intros H. apply forallb_forall. intros o Ho. destruct o; cbn; try reflexivity. eapply H. exact Ho. }
  destruct P as [U In' Sd N Ta C V L T HL' HC HU | u In' Sd N Ta C V L T HL' HC HA
                | u In' Sd N Ta C V T HC HA | u Sd N C V HV HC HA | u p In' Sd N Ta V L T HL' | u In' Sd N Ta V T];
    cbn in *; subst; try discriminate.
  - left. apply none_runs_idle in T. subst. repeat split; auto; [lia|]. intros H. rewrite (HL H) in HU.
    rewrite HU by reflexivity. congruence.
  - right. apply none_runs_idle in T. subst. exists u. repeat split; auto; congruence.
  - right. exists u. repeat split; auto; congruence.
Qed.
Print Assumptions one_player_partial.

(** Every packet that leaves is one of the player the last answered command has started: after a
    stop has been answered nothing of the announcement leaves, and after a play has been answered
    nothing of an earlier one. *)
Theorem packets_of_latest_player_partial copied os s es :
  undisturbed copied init os -> run copied init os = Go s es -> from_latest None es.
Proof.
  intros D E. pose proof (phase_run copied os None false init good_init phase_init D) as P. rewrite E in P. tauto.
Qed.
Print Assumptions packets_of_latest_player_partial.

(** When no player of another stream is copied into the session, the threads do not lock each other
    out. *)
Theorem players_never_deadlock_partial os s es :
  undisturbed false init os -> run false init os = Go s es -> ~ deadlocked s.
Proof.
  intros D E. pose proof (phase_run false os None false init good_init phase_init D) as P. rewrite E in P.
  destruct P as (G & P & _).
  pose proof (no_other_run os init s es Logic.I E) as NC.
  destruct G as (_ & GS & GL & _). unfold srv_ok in GS. unfold lock_ok in GL.
  intros (W1 & W2). unfold wants_stream in W1. unfold wants_table in W2.
  destruct P as [U In' Sd N Ta C V L T HL' HC HU | u In' Sd N Ta C V L T HL' HC HA
                | u In' Sd N Ta C V T HC HA | u Sd N C V HV HC HA | u p In' Sd N Ta V L T HL' | u In' Sd N Ta V T];
    cbn in *; try (destruct HL' as [-> | ->]; contradiction); try contradiction.
  - destruct T as [->|(v & -> & ->)]; [|contradiction]. destruct V as [| |[w|]|w|w]; try contradiction.
  - destruct T as [->|(v & -> & ->)]; [|contradiction]. destruct V as [| |[w|]|w|w]; try contradiction.
Qed.
Print Assumptions players_never_deadlock_partial.

(** Then every thread can finish what it is at: no command hangs. *)
Theorem commands_complete_partial os s es :
  undisturbed false init os -> run false init os = Go s es ->
  exists s' es', run false s settle = Go s' es' /\ quiet s'.
Proof.
  intros D E. pose proof (phase_run false os None false init good_init phase_init D) as P. rewrite E in P.
  destruct P as (G & P & _).
  exact (settle_phase _ _ s G P (no_other_run os init s es Logic.I E)).
Qed.
Print Assumptions commands_complete_partial.

(** ** What the code does not guarantee *)

(** A play command is answered while the stream cannot send yet. *)
Definition play_waiting : list op := [OPlay; OCmd true true; OCmd true true; OCmd true true].
(** A command that stops the player (and goes on to play, or not) reads its number; a packet makes
    the stream able to send, and its thread takes the player off the table of the waiting; the
    command finds it in neither table; the thread enters it in the table of the running. *)
Definition stop_misses (o : op) : list op :=
  [o; OCmd true true; OSendable true; OMove; OCmd true true; OCmd true true; OMove].

(** "After a stop command is answered nothing of the announcement leaves" is false: the player goes
    on, and the media of the other side goes on being dropped. *)
Theorem stopping_is_effective_refuted :
  exists os s es, run false init os = Go s es /\
    es = [EPlaying 0%nat; EStopped; EPacket 0%nat] /\ players s = [0%nat] /\ muted s.
Proof.
  exists (play_waiting ++ stop_misses OStop ++ [OTurn; OPick 0; OSrv]). eexists. eexists.
  split; [vm_compute; reflexivity|]. repeat split; vm_compute; auto.
Qed.
Print Assumptions stopping_is_effective_refuted.

(** "At most one announcement is played to a side" is false: the packets of two players leave in
    turn; and when both have ended the media of the other side is dropped for good: no command
    brings it back. *)
Definition two_players : list op :=
  play_waiting ++ stop_misses OPlay ++ [OCmd true true; OCmd true true].
Theorem one_player_refuted :
  exists s es, run false init (two_players ++ [OTurn; OPick 0; OSrv; OPick 1; OSrv; OPick 0; OSrv]) = Go s es /\
    es = [EPlaying 0%nat; EPlaying 1%nat; EPacket 0%nat; EPacket 1%nat; EPacket 0%nat].
Proof. eexists. eexists. split; [vm_compute; reflexivity|reflexivity]. Qed.
Print Assumptions one_player_refuted.

Theorem muting_ends_refuted :
  exists s es, run false init (two_players ++ [OTurn; OPickEof 0; OSrv; OSrv; OPickEof 1; OSrv; OSrv; OTurnEnd]) = Go s es /\
    quiet s /\ players s = [] /\ ~ counts_as_playing s /\ muted s /\
    exists s2 es2, run false s [OStop; OCmd true true] = Go s2 es2 /\ es2 = [EStopped] /\ quiet s2 /\ muted s2.
Proof.
  eexists. eexists. split; [vm_compute; reflexivity|]. unfold quiet, players, counts_as_playing, muted. cbn.
  split; [auto|]. split; [auto|]. split; [tauto|]. split; [lia|].
  eexists. eexists. split; [vm_compute; reflexivity|]. cbn. repeat split; lia.
Qed.
Print Assumptions muting_ends_refuted.

(** "The threads do not lock each other out" is false, with the same schedule, and with media copied
    from the session of another player. *)
Theorem players_never_deadlock_refuted :
  (exists s es, run false init (play_waiting ++ stop_misses OPlay ++ [OTurn; OPick 0; OCmd true true]) = Go s es /\ deadlocked s) /\
  (exists s es, run true init [OSendable true; OPlay; OCmd true true; OTurn; OPickOther; OCmd true true] = Go s es /\ deadlocked s /\
     undisturbed true init [OSendable true; OPlay; OCmd true true; OTurn; OPickOther; OCmd true true]).
Proof.
  split.
  - eexists. eexists. split; [vm_compute; reflexivity|]. split; vm_compute; auto.
  - eexists. eexists. split; [vm_compute; reflexivity|]. split; [split; vm_compute; auto|]. vm_compute. tauto.
Qed.
Print Assumptions players_never_deadlock_refuted.

(** A deadlock does not resolve: the two threads stay where they are whatever comes. *)
Theorem deadlock_stays copied os s es os' s' es' :
  run copied init os = Go s es -> deadlocked s -> run copied s os' = Go s' es' ->
  deadlocked s' /\ srv s' = srv s /\ slock s' = slock s.
Proof.
  intros E D. pose proof (good_run copied os init good_init) as G. rewrite E in G.
  exact (deadlock_run copied os' s G D s' es').
Qed.
Print Assumptions deadlock_stays.

(** "A stream counts as playing only while a player exists" is false when the player cannot be
    registered: its number stays, with no player, whatever stop commands come. *)
Theorem failed_play_counts_as_playing_refuted :
  exists s es, run false init [OPlay; OCmd true true; OCmd true false] = Go s es /\
    es = [EFailed] /\ quiet s /\ players s = [] /\ counts_as_playing s /\
    exists s2 es2, run false s [OStop; OCmd true true; OCmd true true; OCmd true true] = Go s2 es2 /\
      es2 = [EStopped] /\ quiet s2 /\ counts_as_playing s2.
Proof.
  eexists. eexists. split; [vm_compute; reflexivity|]. unfold quiet, players, counts_as_playing. cbn.
  repeat split; auto; try discriminate.
  eexists. eexists. split; [vm_compute; reflexivity|]. cbn. repeat split; auto; discriminate.
Qed.
Print Assumptions failed_play_counts_as_playing_refuted.

(** ** Examples *)

(** Play, two packets, play again: the first ends, the second plays and ends. *)
Definition ex_ops : list op :=
  [OSendable true; OPlay; OCmd true true; OCmd true true; OCmd true true;
   OTurn; OPick 0; OSrv; OTurnEnd; OTurn; OPick 0; OSrv; OTurnEnd;
   OPlay; OCmd true true; OCmd true true; OCmd true true; OCmd true true; OCmd true true; OCmd true true;
   OTurn; OPick 1; OSrv; OPickEof 1; OSrv; OSrv; OTurnEnd].
Example ex_undisturbed : undisturbed false init ex_ops.
Proof. vm_compute. tauto. Qed.
Example ex_run : exists s, run false init ex_ops =
    Go s [EPlaying 0%nat; EPacket 0%nat; EPacket 0%nat; EPlaying 1%nat; EPacket 1%nat] /\ quiet s /\ players s = [] /\ ~ muted s.
Proof. eexists. split; [vm_compute; reflexivity|]. unfold quiet, players, muted. cbn. repeat split; lia. Qed.

(** A play command before the stream can send: the player waits, and starts with the first packet. *)
Example ex_waits : exists s es, run false init play_waiting = Go s es /\ quiet s /\ tin s = [0%nat] /\ muted s /\ undisturbed false init play_waiting.
Proof. eexists. eexists. split; [vm_compute; reflexivity|]. unfold quiet, muted. cbn. repeat split; try lia; vm_compute; tauto. Qed.
Example ex_starts : exists s es, run false init (play_waiting ++ [OSendable true; OMove; OMove; OTurn; OPick 0; OSrv; OTurnEnd]) = Go s es /\
  es = [EPlaying 0%nat; EPacket 0%nat] /\ quiet s /\ players s = [0%nat].
Proof. eexists. eexists. split; [vm_compute; reflexivity|]. unfold quiet, players. cbn. repeat split. Qed.

(** A player being stopped while the player thread has got a packet of it: the packet leaves first. *)
Example ex_stop_during_turn : exists s es,
  run false init [OSendable true; OPlay; OCmd true true; OCmd true true; OCmd true true;
       OTurn; OPick 0; OStop; OCmd true true; OCmd true true; OCmd true true; OSrv; OTurnEnd;
       OCmd true true; OCmd true true] = Go s es /\
  es = [EPlaying 0%nat; EPacket 0%nat; EStopped] /\ quiet s /\ players s = [] /\ ~ muted s /\ ~ counts_as_playing s.
Proof. eexists. eexists. split; [vm_compute; reflexivity|]. unfold quiet, players, muted, counts_as_playing. cbn. repeat split; try lia. tauto. Qed.

(** A play command stopping another player, in the middle: everything completes. *)
Example ex_settles : exists s es s' es',
  run false init [OSendable true; OPlay; OCmd true true; OCmd true true; OCmd true true;
                  OTurn; OPickEof 0; OPlay; OCmd true true] = Go s es /\ ~ quiet s /\
  run false s settle = Go s' es' /\ quiet s' /\ players s' = [1%nat] /\ es' = [EPlaying 1%nat].
Proof.
  eexists. eexists. eexists. eexists. split; [vm_compute; reflexivity|].
  split; [unfold quiet; cbn; intros (H & _); discriminate|]. split; [vm_compute; reflexivity|]. repeat split.
Qed.
