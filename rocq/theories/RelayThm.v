From Verif Require Import Base AddrModel LatchModel RelayModel RelaySpec RelayProof.

(** Example: a call between a callee at 1:1000 and a caller at 2:2000. *)
Definition callee := mkSid 0 false false.
Definition caller := mkSid 0 false true.
Definition from (h p t : Z) (d : list Z) := mkPkt {| p_from := SaIn h p; p_time := t; p_rtp := Some (7, t mod 65536) |} d.
Definition go := Step false false false NOP NOP.
Definition call_ops : list op :=
  [Open callee; Prefill caller (SaIn 2 2000) 1; Arrive callee (from 1 1000 5 [0]); Turn callee; Open caller; Complete 0; Prefill callee (SaIn 1 1000) 2; Lock callee;
   Arrive callee (from 1 1000 20000000 [1]); Arrive caller (from 2 2000 20000000 [2]); Arrive callee (from 9 9 20000000 [3]); Arrive callee (from 1 1000 20000001 [4]);
   Turn callee; go; go; Arrive callee (from 1 1000 20000002 [5]); go; Turn caller; go; go; go; Turn callee; go; go; go; go].

(** Every datagram that came to a port of a session has exactly one fate, in the order of arrival, or is still with the thread or
    in the socket. *)
Theorem every_packet_has_one_fate : forall os s tr x, run start os = (s, tr) ->
  arrived tr x = map fst (fates tr x) ++ in_hand s x ++ inq s x.
Proof. exact fate_lemma. Qed.
Print Assumptions every_packet_has_one_fate.

Example ex_fates : let '(s, tr) := run start call_ops in
  map snd (fates tr callee) = [Flushed; Relayed (SaIn 2 2000); Ignored; Relayed (SaIn 2 2000)] /\ map snd (fates tr caller) = [Relayed (SaIn 1 1000)] /\
  length (inq s callee) = 1%nat.
Proof. vm_compute. repeat split. Qed.

(** What leaves from the port of a stream came, unchanged, to the port of the other party in the same session and of the same
    kind, and goes to the address known for the stream it leaves from. *)
Theorem relayed_to_the_other_party : forall os s tr o s' ev y a k, run start os = (s, tr) -> step s o = (s', ev) -> In (ESend y a k) ev ->
  known_address s y = Some a /\ In (EArrive (peer y) k) tr.
Proof. exact send_lemma. Qed.
Print Assumptions relayed_to_the_other_party.

Theorem never_sent_nowhere : forall os s tr, run start os = (s, tr) -> ~ In ENull tr.
Proof. exact nowhere_lemma. Qed.
Print Assumptions never_sent_nowhere.

Example ex_sent : In (ESend caller (SaIn 2 2000) (from 1 1000 20000001 [4])) (snd (run start call_ops)).
Proof. vm_compute. tauto. Qed.

(** A datagram that the stream accepts is passed on in the thread's turn if the other party's address is known and nothing is
    being played to it. *)
Theorem relayed_when_possible : forall os s tr x k q empty chg a c2 el2 l2 e3 c3 el3 e4 l4, run start os = (s, tr) ->
  wrk s (s_rtcp x) = Idle -> skt s x = true -> live s (s_call x) = true -> cmpl s (s_call x) = true -> inq s x = k :: q ->
  snd (rx (str s x) (if s_rtcp x then None else Some (str s (rtcp_of x))) empty (k_h k)) = Accept ->
  plr s (peer x) = false -> known_address s (peer x) = Some a ->
  snd (run s [Turn x; Step (s_rtcp x) empty c2 el2 l2; Step (s_rtcp x) e3 chg NOP NOP; Step (s_rtcp x) e4 c3 el3 l4])
    = [ETurn x; ETtl x; ESend (peer x) a k].
Proof. exact relay_lemma. Qed.
Print Assumptions relayed_when_possible.

Example ex_possible : let s := fst (run start call_ops) in wrk s false = Idle /\ skt s callee = true /\ live s 0%nat = true /\ cmpl s 0%nat = true /\
  inq s callee = [from 1 1000 20000002 [5]] /\ snd (rx (str s callee) (Some (str s (rtcp_of callee))) false (k_h (from 1 1000 20000002 [5]))) = Accept /\
  plr s caller = false /\ known_address s caller = Some (SaIn 2 2000).
Proof. vm_compute. repeat split. Qed.

(** Why a datagram was not passed on: an announcement was playing, no address was known; it was ignored because the stream had an
    address and the datagram was from another one. *)
Theorem dropped_for_a_reason : forall os s tr o s' ev x k w, run start os = (s, tr) -> step s o = (s', ev) -> In (EDrop x k w) ev ->
  match w with Playing => plr s (peer x) = true | NoAddr => known_address s (peer x) = None | _ => True end.
Proof. exact drop_lemma. Qed.
Print Assumptions dropped_for_a_reason.
Theorem ignored_for_a_reason : forall os s tr o s' ev x k, run start os = (s, tr) -> step s o = (s', ev) -> In (EIgnore x k) ev ->
  exists a, l_rem (str s x) = Some a /\ l_mode (str s x) <> FORCE_OFF /\
    (if l_asym (str s x) then ishostseq a (p_from (k_h k)) <> Some true else sa_eqb a (p_from (k_h k)) = false /\ l_latched (str s x) = true).
Proof. exact ignore_lemma. Qed.
Print Assumptions ignored_for_a_reason.

Example ex_dropped : In (EDrop callee (from 1 1000 5 [1]) NoAddr)
  (snd (run start [Open callee; Open caller; Complete 0; Arrive callee (from 1 1000 5 [1]); Turn callee; go; go])) /\
  In (EDrop callee (from 1 1000 5 [1]) Playing)
  (snd (run start [Open callee; Open caller; Complete 0; Play caller true; Arrive callee (from 1 1000 5 [1]); Turn callee; go; go])) /\
  In (EIgnore callee (from 9 9 20000000 [3])) (snd (run start call_ops)).
Proof. vm_compute. tauto. Qed.

(** The counters of a session and those of the proxy are the numbers of datagrams with these fates. *)
Theorem session_counters_exact : forall os s tr c b, run start os = (s, tr) ->
  reld s c b = count relayed (pipe_fates tr c b) mod 2 ^ 64 /\ drop s c b = count isdropped (pipe_fates tr c b) mod 2 ^ 64 /\
  ignr s c b = count isignored (pipe_fates tr c b) mod 2 ^ 64.
Proof. exact pipe_lemma. Qed.
Print Assumptions session_counters_exact.
Theorem proxy_counters_exact : forall os s tr, run start os = (s, tr) ->
  g_reld s = count relayed (all_fates tr) mod 2 ^ 64 /\ g_disc s = count discarded (all_fates tr) mod 2 ^ 64 /\
  g_rcvd s = (count readf (all_fates tr) + all_in_hand s) mod 2 ^ 64.
Proof. exact stats_lemma. Qed.
Print Assumptions proxy_counters_exact.

Example ex_counters : let s := fst (run start call_ops) in reld s 0%nat false = 3 /\ ignr s 0%nat false = 1 /\ g_rcvd s = 4 /\ g_reld s = 3 /\ g_disc s = 2.
Proof. vm_compute. repeat split. Qed.

(** "What was received was relayed or discarded": packets thrown away before the session is complete are counted as discarded
    though not as received. *)
Theorem received_is_relayed_or_discarded_refuted : exists os s tr, run start os = (s, tr) /\ all_in_hand s = 0 /\ g_disc s = 2 /\ g_reld s = 0 /\ g_rcvd s = 0.
Proof.
  exists [Open callee; Arrive callee (from 1 1 1 []); Arrive callee (from 1 1 1 []); Turn callee]. eexists. eexists. split; [reflexivity|]. vm_compute. repeat split.
Qed.
Print Assumptions received_is_relayed_or_discarded_refuted.

(** At the end of a session the log has the number of packets of each party and what became of them; the session counts as one
    without media, or with media in one direction only, when it was complete and no packet of any party, or of exactly one, got
    to the analyser. *)
Theorem session_report_exact : forall os s tr c s' ev, run start os = (s, tr) -> step s (End c) = (s', ev) -> ev <> [] ->
  (forall b callee caller rl dr ig, In (EReport c b callee caller rl dr ig) ev <->
     callee = seen tr (mkSid c b false) /\ caller = seen tr (mkSid c b true) /\ rl = count relayed (pipe_fates tr c b) mod 2 ^ 64 /\
     dr = count isdropped (pipe_fates tr c b) mod 2 ^ 64 /\ ig = count isignored (pipe_fates tr c b) mod 2 ^ 64) /\
  (forall b, In (ENoMedia c b) ev <-> cmpl s c = true /\ seen tr (mkSid c b false) = 0 /\ seen tr (mkSid c b true) = 0) /\
  (forall b, In (EOneWay c b) ev <-> cmpl s c = true /\
     (seen tr (mkSid c b false) = 0 /\ seen tr (mkSid c b true) <> 0 \/ seen tr (mkSid c b false) <> 0 /\ seen tr (mkSid c b true) = 0)).
Proof. exact end_lemma. Qed.
Print Assumptions session_report_exact.

Example ex_report : let ev := snd (step (fst (run start call_ops)) (End 0)) in
  In (EReport 0 false 2 1 3 0 1) ev /\ In (ENoMedia 0 true) ev /\ ~ In (EOneWay 0 false) ev /\ ev <> [].
Proof. vm_compute. intuition discriminate. Qed.

(** The times of the first packets are logged for the wrong party. *)
Theorem times_of_the_right_party_refuted : exists os s tr s' ev t, run start os = (s, tr) /\ step s (End 0) = (s', ev) /\
  seen tr callee = 1 /\ seen tr caller = 0 /\ In (ETimes 0 (Some t) None) ev.
Proof.
  pose (r := run start [Open callee; Open caller; Complete 0; Arrive callee (from 1 1000 5 [1]); Turn callee; go; go]).
  pose (e := step (fst r) (End 0)).
  exists [Open callee; Open caller; Complete 0; Arrive callee (from 1 1000 5 [1]); Turn callee; go; go], (fst r), (snd r), (fst e), (snd e), 5.
  split; [apply surjective_pairing|]. split; [apply surjective_pairing|]. vm_compute. tauto.
Qed.
Print Assumptions times_of_the_right_party_refuted.

(** The timeout of a stream restarts once for every packet of it that comes to the relay, whether or not it can be sent. *)
Theorem timeout_restarts_exact : forall os s tr x, run start os = (s, tr) ->
  restarts tr x = count reached_relay (fates tr x) + on_way_out s x.
Proof. exact restarts_lemma. Qed.
Print Assumptions timeout_restarts_exact.

Example ex_restarts : restarts (snd (run start call_ops)) callee = 2.
Proof. vm_compute. reflexivity. Qed.

(** In a turn with a stream the thread takes at most one packet through the chain. *)
Theorem one_packet_per_turn : forall os0 s0 tr0 x os s tr, run start os0 = (s0, tr0) -> wrk s0 (s_rtcp x) = Idle -> Forall (no_turn (s_rtcp x)) os ->
  run s0 (Turn x :: os) = (s, tr) -> count (handled (s_rtcp x)) (flat_map fates_of tr) <= 1.
Proof. exact turn_lemma. Qed.
Print Assumptions one_packet_per_turn.

Example ex_turn : count (handled false) (flat_map fates_of (snd (run (fst (run start call_ops)) [Turn callee; go; go; go; go]))) = 1.
Proof. vm_compute. reflexivity. Qed.

(** But there is no limit to the packets it reads and ignores in the turn, while all other streams wait. *)
Theorem turn_is_short_refuted : forall n, exists os0 x os s0 tr0, run start os0 = (s0, tr0) /\ wrk s0 (s_rtcp x) = Idle /\ Forall (no_turn (s_rtcp x)) os /\
  count isignored (fates (snd (run s0 (Turn x :: os))) x) = Z.of_nat n.
Proof. exact flood_lemma. Qed.
Print Assumptions turn_is_short_refuted.
