(** C06 and C07: TTL counters and session timeouts. *)
From Verif Require Import Base TtlModel TtlSpec TtlProof.

(** C06. For a TTL created with [n] and any history of up to 2^31 calls, the remaining time
    (and the value a decrement reports) is what was last set minus the decrements since,
    and never negative. *)
Theorem ttl_remaining_exact :
  forall n h, 0 <= n < 2147483648 -> ops_ok h -> Z.of_nat (length h) <= 2147483648 ->
  ttl_get (ttl_run (ttl_ctor n) h) = Z.max 0 (ttl_set n h - decrs 0 h) /\
  snd (ttl_decr (ttl_run (ttl_ctor n) h)) = Z.max 0 (ttl_set n h - decrs 0 h).
Proof. exact ttl_get_exact. Qed.
Print Assumptions ttl_remaining_exact.

Example ttl_remaining_exact_ex :
  let h := [TDecr; TResetWith 3; TDecr; TDecr; TDecr; TDecr; TReset; TDecr] in
  ops_ok h /\ Z.of_nat (length h) <= 2147483648 /\ ttl_set 60 h = 3 /\ decrs 0 h = 1 /\
  ttl_get (ttl_run (ttl_ctor 60) h) = 2.
Proof. split; [repeat constructor; lia|]. vm_compute. repeat split; discriminate. Qed.

(** C06, counterexample for unsynchronised use: reset() racing with reset_with(5) on an object
    whose TTL was 60 leaves 60 seconds on the clock although the TTL in force is 5. *)
Theorem ttl_reset_race_refuted :
  exists s, rc_t s = ttl_ctor 60 /\
    let s' := fold_left ttl_atom_step [RLoad; WMax 5; WTtl 5; RStore] s in
    max_ttl (rc_t s') = 5 /\ ttl_get (rc_t s') = 60.
Proof. exists (mkRace (ttl_ctor 60) 0). vm_compute. auto. Qed.
Print Assumptions ttl_reset_race_refuted.

(** C07. A session created at some point of any history is in the session table at the end
    exactly when it was not deleted and no sweep visit found it idle for its full limit
    ([survives], stated over the history in TtlSpec). *)
Theorem session_removed_exactly_when_idle :
  forall i sh n0 n1 nt pre h,
  in_int n0 -> in_int n1 -> ttls_are_ints h -> created_once i pre h ->
  (In i (map se_id (sv_tab (srv_run (pre ++ ECreate i sh n0 n1 nt :: h)))) <-> survives i sh n0 n1 h).
Proof. exact session_alive_iff. Qed.
Print Assumptions session_removed_exactly_when_idle.

(** C07. The timeout notification of a session is scheduled exactly once if the session has
    a notification target and timed out, and never otherwise. *)
Theorem timeout_notified_exactly_once :
  forall i sh n0 n1 nt pre h,
  in_int n0 -> in_int n1 -> ttls_are_ints h -> created_once i pre h ->
  let c := count_occ Z.eq_dec (sv_notified (srv_run (pre ++ ECreate i sh n0 n1 nt :: h))) i in
  (c = 1%nat <-> nt = true /\ times_out i sh n0 n1 h) /\ (c <= 1)%nat.
Proof. exact session_notified. Qed.
Print Assumptions timeout_notified_exactly_once.

(** C07. The nsess_timeout counter equals the number of sessions the sweep removed. *)
Theorem timeout_counter_exact :
  forall h, sv_ntimeout (srv_run h) = swept srv_init h.
Proof. intros h. exact (ntimeout_swept h srv_init). Qed.
Print Assumptions timeout_counter_exact.

(** Two sessions; session 7 (shared TTL 2) gets a packet after its first visit and then times out
    on its third idle visit; session 8 (independent TTLs) times out because one side is silent. *)
Example session_timeout_ex :
  let pre := [ECreate 8 false 1 1 true; EVisit 8; EPacket 8 SideO; EVisit 8] in
  let h := [EVisit 7; EPacket 7 SideA; EVisit 7; EVisit 7; EVisit 7] in
  created_once 7 pre h /\ ttls_are_ints h /\ in_int 2 /\
  sv_tab (srv_run (pre ++ ECreate 7 true 2 2 true :: h)) = [] /\
  sv_notified (srv_run (pre ++ ECreate 7 true 2 2 true :: h)) = [8; 7] /\
  sv_ntimeout (srv_run (pre ++ ECreate 7 true 2 2 true :: h)) = 2 /\
  map se_id (sv_tab (srv_run (pre ++ ECreate 7 true 2 2 true :: [EVisit 7; EPacket 7 SideA; EVisit 7; EVisit 7]))) = [7].
Proof.
  split; [split; reflexivity|]. split; [repeat constructor|]. split; [unfold in_int; lia|].
  vm_compute. repeat split.
Qed.
