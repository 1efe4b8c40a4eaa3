From Verif Require Import Base AddrModel LatchModel LatchSpec LatchProof.

(** A peer at 10.0.0.2, its stream latched by a first packet, and somebody else at 10.0.0.9. *)
Definition peer : sockaddr := SaIn 167772162 4000.
Definition peer_rtcp : sockaddr := SaIn 167772162 4001.
Definition evil : sockaddr := SaIn 167772169 6000.
Definition pkt (a : sockaddr) (t ssrc seq : Z) : packet :=
  {| p_from := a; p_time := t; p_rtp := Some (ssrc, seq) |}.
Definition junk (a : sockaddr) (t : Z) : packet := {| p_from := a; p_time := t; p_rtp := None |}.
Definition call0 : leg := {| g_rtp := new_stream PIPE_RTP false; g_rtcp := new_stream PIPE_RTCP false |}.
Definition setup : list event :=
  [Update peer peer_rtcp 100; RtpIn (pkt peer 20000000 77 65530) false false;
   RtcpIn (junk peer_rtcp 20000000) false].
Definition call1 : leg := fst (run call0 setup).

Example call1_protected : protected (g_rtp call1) peer /\ protected (g_rtcp call1) peer_rtcp /\ wf_leg call1.
Proof.
  vm_compute. repeat split; auto; try discriminate; intros; discriminate.
Qed.

(** The conditions of well-formedness below hold at all times. *)
Theorem every_call_wf : forall es asym, Forall wf_event es ->
  wf_leg (fst (run {| g_rtp := new_stream PIPE_RTP asym; g_rtcp := new_stream PIPE_RTCP asym |} es)).
Proof. intros es asym F. apply wf_run; auto. repeat split; auto; cbn; lia. Qed.
Print Assumptions every_call_wf.

(** Once the stream has latched its peer, a packet from any other address is discarded, and leaves
    no trace, unless it continues the latched RTP media or comes right after a command updated the
    stream; in these two cases it becomes the new peer. *)
Theorem other_address_verdict : forall s c p a s' c' v,
  wf_stream s -> wf_packet p -> protected s a -> p_from p <> a -> rx s c false p = (s', c', v) ->
  (v = Discard /\ s' = s /\ c' = c /\ ~ continues s p /\ ~ in_update_window s p) \/
  (v = Accept /\ l_rem s' = Some (p_from p) /\ (continues s p \/ in_update_window s p)).
Proof. exact other_address_lemma. Qed.
Print Assumptions other_address_verdict.

Example other_address_discarded : rx (g_rtp call1) None false (pkt evil 21000000 77 531) = (g_rtp call1, None, Discard).
Proof. vm_compute. reflexivity. Qed.
Example other_address_wrapped : snd (rx (g_rtp call1) None false (pkt evil 21000000 77 530)) = Accept.
Proof. vm_compute. reflexivity. Qed.
Example other_address_ssrc : snd (rx (g_rtp call1) None false (pkt evil 21000000 78 65531)) = Discard.
Proof. vm_compute. reflexivity. Qed.

(** Whatever history the call goes through, packets of an attacker mixed into it are all discarded,
    and the rest of the history gives the same verdicts and ends in the same state as without them. *)
Theorem attacks_have_no_effect : forall g es fs vs,
  wf_leg g -> Forall wf_event es -> mixed g es fs vs -> run g es = (fst (run g fs), vs).
Proof. exact mixed_lemma. Qed.
Print Assumptions attacks_have_no_effect.

Example attacks_example : exists vs,
  mixed call1
    [RtpIn (pkt evil 21000000 99 1) false true; RtpIn (pkt peer 21100000 77 65535) false false;
     RtpIn (pkt evil 21200000 77 600) false false; RtpIn (junk evil 21300000) false false;
     RtcpIn (junk evil 21400000) false; RtpIn (pkt peer 22500000 77 4) false false]
    [RtpIn (pkt peer 21100000 77 65535) false false; RtpIn (pkt peer 22500000 77 4) false false] vs /\
  vs = [Some Discard; Some Accept; Some Discard; Some Discard; Some Discard; Some Accept].
Proof.
  eexists. split.
  - apply mx_attack.
    { split; auto. split; [exists peer; apply call1_protected|]. split; [discriminate|]. split.
      - intros (_ & _ & v & q & E1 & E2 & _). vm_compute in E1, E2. congruence.
      - intros (_ & _ & _ & _ & _ & W). vm_compute in W. apply W. reflexivity. }
    apply mx_good. apply mx_attack.
    { split; auto. split; [exists peer; vm_compute; repeat split; auto; discriminate|]. split; [discriminate|]. split.
      - intros (_ & _ & v & q & E1 & E2 & D). vm_compute in E1, E2. injection E2 as <- <-. vm_compute in D. apply D. reflexivity.
      - intros (_ & _ & _ & _ & _ & W). vm_compute in W. apply W. reflexivity. }
    apply mx_attack.
    { split; auto. split; [exists peer; vm_compute; repeat split; auto; discriminate|]. split; [discriminate|]. split.
      - intros (_ & _ & v & q & E1 & E2 & _). discriminate.
      - intros (_ & _ & _ & E & _). apply E. reflexivity. }
    apply mx_attack.
    { split; auto. split; [exists peer_rtcp; vm_compute; repeat split; auto; discriminate|]. split; [discriminate|]. split.
      - intros (E & _). discriminate.
      - intros (E & _). discriminate. }
    apply mx_good. apply mx_nil.
  - vm_compute. reflexivity.
Qed.

(** The peer itself is never locked out: its packets are accepted and its address stays. *)
Theorem peer_always_accepted : forall g p a chg,
  protected (g_rtp g) a -> p_from p = a ->
  snd (step g (RtpIn p false chg)) = Some Accept /\
  l_rem (g_rtp (fst (step g (RtpIn p false chg)))) = Some a /\
  g_rtcp (fst (step g (RtpIn p false chg))) = g_rtcp g.
Proof. exact peer_lemma. Qed.
Print Assumptions peer_always_accepted.

Example peer_accepted_new_ssrc : snd (step call1 (RtpIn (pkt peer 21000000 5 5) false true)) = Some Accept.
Proof. vm_compute. reflexivity. Qed.

(** As long as no command touches the call, both streams keep their peers, whatever else is sent
    to their ports. *)
Theorem addresses_kept : forall g es a b,
  wf_leg g -> Forall wf_event es -> protected (g_rtp g) a -> protected (g_rtcp g) b -> peaceful g es ->
  protected (g_rtp (fst (run g es))) a /\ protected (g_rtcp (fst (run g es))) b.
Proof. exact peace_lemma. Qed.
Print Assumptions addresses_kept.

Example peaceful_example : peaceful call1
  [RtcpIn (junk evil 21400000) false; RtpIn (pkt peer 22500000 78 4) false true].
Proof.
  apply pc_cons.
  { left. split; auto. split; [exists peer_rtcp; apply call1_protected|]. split; [discriminate|]. split.
    - intros (E & _). discriminate.
    - intros (E & _). discriminate. }
  apply pc_cons.
  { right. split; auto. split; [reflexivity|]. cbn. discriminate. }
  apply pc_nil.
Qed.

(** A client declared asymmetric is known by its host only: packets of that host are accepted
    from any port, all others are discarded, and no packet changes the address. *)
Theorem asymmetric_by_host : forall s c p a s' c' v,
  l_rem s = Some a -> l_asym s = true -> l_mode s <> FORCE_OFF -> rx s c false p = (s', c', v) ->
  (v = Accept <-> ishostseq a (p_from p) = Some true) /\
  l_rem s' = l_rem s /\ l_latched s' = l_latched s /\ c' = c.
Proof. exact asym_lemma. Qed.
Print Assumptions asymmetric_by_host.

Example asymmetric_example :
  let s := prefill (new_stream PIPE_RTP true) peer 5 in
  snd (rx s None false (pkt peer_rtcp 10 1 1)) = Accept /\ snd (rx s None false (pkt evil 10 1 1)) = Discard.
Proof. vm_compute. auto. Qed.

(** The first packet, with an address given by a command more than ten seconds ago or when the
    address was first given, latches the stream to its sender. *)
Theorem first_packet_latches : forall s c p a s' c' v,
  l_rem s = Some a -> l_latched s = false -> l_asym s = false -> l_mode s = NORMAL ->
  (l_update s = 0 \/ p_time p - l_update s >= 10000000) ->
  match p_rtp p with Some (x, _) => x <> 0 | None => True end ->
  rx s c false p = (s', c', v) ->
  v = Accept /\ l_rem s' = Some (p_from p) /\ l_latched s' = true /\
  (l_pipe s = PIPE_RTP -> l_ssrc s' = match p_rtp p with Some (x, _) => Some x | None => None end).
Proof. exact latch_in_lemma. Qed.
Print Assumptions first_packet_latches.

(** ... and so it does when no address is known. *)
Theorem unknown_address_learned : forall s c p s' c' v e,
  l_rem s = None -> l_mode s = NORMAL -> l_prev s = None -> rx s c e p = (s', c', v) ->
  v = Accept /\ l_rem s' = Some (p_from p) /\ l_latched s' = true.
Proof. exact learn_lemma. Qed.
Print Assumptions unknown_address_learned.

Example learned_example : l_rem (g_rtp (fst (step call0 (RtpIn (pkt peer 5 1 1) true true)))) = Some peer.
Proof. vm_compute. reflexivity. Qed.

(** The RTCP stream follows: when an RTP packet moves the RTP stream to a new address, the RTCP
    stream goes to the next port of the new host, open to be latched again, unless it was already
    at that host; otherwise an RTP packet leaves it alone. *)
Theorem rtcp_follows_rtp : forall g p em chg, wf_packet p ->
  let g' := fst (step g (RtpIn p em chg)) in
  let r := g_rtcp g in let r' := g_rtcp g' in
  (l_rem (g_rtp g') = l_rem (g_rtp g) \/ l_rem (g_rtp g') = Some (p_from p)) /\
  ((l_rem (g_rtp g') = l_rem (g_rtp g) /\ r' = r) \/
   (r' = r /\ (getport (p_from p) = Some 65535 \/
               exists b, l_rem r = Some b /\ ishostseq b (p_from p) = Some true)) \/
   (exists b, l_rem r' = Some b /\ next_port (p_from p) b /\ l_latched r' = l_asym r)).
Proof. exact rtcp_follows_lemma. Qed.
Print Assumptions rtcp_follows_rtp.

Example rtcp_follows_example :
  l_rem (g_rtcp (fst (step call1 (RtpIn (pkt evil 21000000 77 65531) false false)))) = Some (SaIn 167772169 6001).
Proof. vm_compute. reflexivity. Qed.

(** The sequence number a new sender is measured against was in a packet that reached this stream
    with the latched SSRC, or with any SSRC if a command has updated the stream meanwhile. *)
Theorem noted_sequence_was_received : forall asym es v,
  Forall timed_event es ->
  let s := g_rtp (fst (run {| g_rtp := new_stream PIPE_RTP asym; g_rtcp := new_stream PIPE_RTCP asym |} es)) in
  l_ssrc s = Some v ->
  exists p em chg v', In (RtpIn p em chg) es /\ p_rtp p = Some (v', l_seq s) /\ (v' = v \/ l_update s <> 0).
Proof. exact noted_lemma. Qed.
Print Assumptions noted_sequence_was_received.

Example noted_example : l_ssrc (g_rtp call1) = Some 77 /\ l_seq (g_rtp call1) = 65530 /\ l_update (g_rtp call1) = 0.
Proof. vm_compute. auto. Qed.

(** The lock command protects an address at once, even one no packet has come from. *)
Theorem lock_protects : forall g a b,
  l_rem (g_rtp g) = Some a -> l_rem (g_rtcp g) = Some b ->
  l_asym (g_rtp g) = false -> l_asym (g_rtcp g) = false ->
  l_mode (g_rtp g) <> FORCE_OFF -> l_mode (g_rtcp g) <> FORCE_OFF ->
  protected (g_rtp (fst (step g Lock))) a /\ protected (g_rtcp (fst (step g Lock))) b.
Proof. intros. repeat split; auto. Qed.
Print Assumptions lock_protects.

(** A command that gives an address is heeded until the stream has taken an address from a packet. *)
Theorem command_sets_address : forall g a b t,
  l_untrusted (g_rtp g) = false ->
  l_rem (g_rtp (fst (step g (Update a b t)))) = Some a.
Proof. exact command_lemma. Qed.
Print Assumptions command_sets_address.

Example command_example : l_rem (g_rtp (fst (run call0 [Update peer peer_rtcp 5; Update evil evil 6]))) = Some evil.
Proof. vm_compute. reflexivity. Qed.

(** Not so when the packet came in while the address was still unknown: that test (line 1198) is
    made before the lock is taken, so a packet that passed it replaces an address latched since. *)
Theorem late_packet_discarded_refuted : exists s p s',
  wf_stream s /\ wf_packet p /\ protected s peer /\ off_path s p /\
  rx s None true p = (s', None, Accept) /\ l_rem s' = Some (p_from p) /\ p_from p <> peer.
Proof.
  exists (g_rtp call1), (pkt evil 21000000 99 1). eexists.
  split; [apply call1_protected|]. split; [vm_compute; repeat split; auto; discriminate|].
  split; [apply call1_protected|]. split.
  { split; [discriminate|]. split.
    - intros (_ & _ & v & q & E1 & E2 & _). vm_compute in E1, E2. congruence.
    - intros (_ & _ & _ & _ & _ & W). vm_compute in W. apply W. reflexivity. }
  split; [vm_compute; reflexivity|]. split; [reflexivity|discriminate].
Qed.
Print Assumptions late_packet_discarded_refuted.

(** Nor does the address a command gives always count: if the first packet to reach the port was
    not RTP at all, the stream has latched its sender with no SSRC; then a command naming the real
    peer changes nothing, and the packets of that peer right after it are discarded. *)
Theorem update_lets_the_peer_in_refuted : exists es t p,
  Forall wf_event es /\ wf_packet p /\
  let g := fst (run call0 (es ++ [Update peer peer_rtcp t])) in
  p_from p = peer /\ p_rtp p <> None /\ t <= p_time p < t + 10000000 /\
  snd (step g (RtpIn p false true)) = Some Discard.
Proof.
  exists [RtpIn (junk evil 5) true false], 1000, (pkt peer 2000 77 1).
  split; [repeat constructor; vm_compute; auto; discriminate|].
  split; [vm_compute; repeat split; auto; discriminate|].
  vm_compute. repeat split; auto; discriminate.
Qed.
Print Assumptions update_lets_the_peer_in_refuted.

(** And one packet of the peer with SSRC 0 gives its protection up: the next packet from anywhere
    takes the stream over. *)
Theorem peer_stays_latched_refuted : exists p q,
  wf_packet p /\ wf_packet q /\ p_from p = peer /\ p_from q <> peer /\
  let g := fst (run call1 [RtpIn p false true; RtpIn q false false]) in
  protected (g_rtp call1) peer /\ l_rem (g_rtp g) = Some (p_from q).
Proof.
  exists (pkt peer 21000000 0 1), (pkt evil 22000000 99 1).
  split; [vm_compute; repeat split; auto; discriminate|].
  split; [vm_compute; repeat split; auto; discriminate|].
  split; auto. split; [discriminate|]. split; [apply call1_protected|]. vm_compute. reflexivity.
Qed.
Print Assumptions peer_stays_latched_refuted.
