(** Theorems about the ICE module (C61). The digests are any functions with results of the right size, as in
    StunThm; [pton] reads the text of an address, [cand_line] prints a local candidate, and [sw] is the name of the
    software in the replies. A history starts with a session the module has not been asked anything about. *)
From Verif Require Import Base Str AddrModel StunModel StunSpec StunThm IceModel IceSpec IceProof.
From Verif Require LatchModel LatchSpec QuoteSpec NumSpec RtpSpec.

(** For the examples: a session with an agent on its first side, made by S, that was told of one candidate. *)
Definition ex_stream := LatchModel.new_stream LatchModel.PIPE_RTP false.
Definition ex_rtcp := LatchModel.new_stream LatchModel.PIPE_RTCP false.
Definition ex_fresh : sys := fresh (Two ex_stream ex_stream) (Two ex_rtcp ex_rtcp) (Two (In4 0x0a000001 35000) (In4 0x0a000001 35002)).
Definition ex_pton (s : list Z) : option sa := if beq s (B "10.0.0.9") then Some (In4 0x0a000009 0) else None.
Definition ex_line (_ : sa) : list Z := B "1 1 UDP 2 h 7 typ host".
Definition ex_sw : list Z := B "rtpproxy".
Definition ex_run := run ex_mac ex_crc ex_sw ex_pton ex_line.
Definition ex_step := step ex_mac ex_crc ex_sw ex_pton ex_line.
Definition ex_S : op := Command true [B "S"] (fun _ => 0).
Definition ex_A : op := Command false [B "A"; B "R1xy"; repeat 112 22] (fun _ => 1).
Definition ex_C : op := Command false [B "C"; B "1"; B "1"; B "UDP"; B "99"; B "10.0.0.9"; B "4000"; B "typ"; B "host"] (fun _ => 0).
Definition ex_src : sa := In4 0x0a000009 4000.
Definition ex_request (key : list Z) (l : list attr) : list Z :=
  match encode ex_mac ex_crc 1 0 ex_tid (Some key) true l with Some b => b | None => [] end.
Definition ex_pwd : list Z := repeat 65 24.
Definition ex_use (flags : list attr) : list attr :=
  [mkAttr 0x6 (VStr (B "AAAA:R1xy")); mkAttr 0x802a (VU64 77); mkAttr 0x24 (VU32 9)] ++ flags.
Definition ex_nominate : pkt := mkPkt (ex_request ex_pwd (ex_use [mkAttr 0x25 VFlag])) ex_src 5 None.
Definition ex_probe : pkt := mkPkt (ex_request ex_pwd (ex_use [])) ex_src 5 None.
Definition ex_forged : pkt := mkPkt (ex_request (B "guess") (ex_use [mkAttr 0x25 VFlag])) ex_src 5 None.
Definition ex_media : pkt := mkPkt ([128; 0; 0; 1] ++ repeat 7 20) ex_src 6 (Some (7, 1)).
Definition ex_stranger : pkt := mkPkt ([128; 0; 0; 1] ++ repeat 7 20) (In4 0x0a0000ff 4000) 6 (Some (7, 1)).
Definition ex_report : pkt := mkPkt ([128; 201; 0; 1] ++ repeat 7 4) ex_src 6 None.
Definition ex_before : list op := [ex_S; ex_A; ex_C].
Definition ex_done : list op := ex_before ++ [RtpIn false ex_nominate false false true; Work].
Definition ex_probed : list op := ex_before ++ [RtpIn false ex_probe false false true].

(** An agent answers the binding requests with a right fingerprint, and nothing else, and says to each what the
    documents ask for; the one who asked reads the reply and finds it good under the password of the agent. *)
Theorem ice_requests_answered : forall mac crc sw pton cand_line s c local ops, digests mac crc -> text sw -> zlen sw <= 170 -> Forall possible ops ->
  let y := fst (run mac crc sw pton cand_line (fresh s c local) ops) in
  forall w q, y_q y = w :: q ->
  let g := nth_ag y (w_ag w) in let b := k_bytes (w_pkt w) in
  let reply := snd (worker mac crc sw y) in
  (g_local g = None -> reply = None) /\
  (g_local g <> None ->
   ((forall m, ~ (decode b = Ok m /\ binding_request b /\ fingerprint_ok crc b m)) -> reply = None) /\
   (forall m, decode b = Ok m -> binding_request b -> fingerprint_ok crc b m ->
    exists a t, answers mac g b m a /\ (forall a', answers mac g b m a' -> a' = a) /\
      reply = Some (k_src (w_pkt w), t) /\ says mac crc (g_lpwd g) (k_src (w_pkt w)) m a t)).
Proof.
  intros mac crc sw pton cl s c local ops (Dm & Dc) Ts Ls F y w q Q g b reply.
  pose proof (worker_reply mac crc sw Dm Dc Ts Ls y w q (inv_ops mac crc sw pton cl s c local ops F) Q) as H.
  fold g in H. fold b in H. fold reply in H. cbv zeta in H. destruct H as [(R & N)|(L & m & a & t & R & D & Br & Fp & An & Sy)].
  - split; [intros _; exact R|]. intros L. split; [intros _; exact R|]. intros m D Br Fp. exfalso. destruct N as [N|N]; [contradiction|]. exact (N m (conj D (conj Br Fp))).
  - split; [intros X; contradiction|]. intros _. split; [intros X; exfalso; exact (X m (conj D (conj Br Fp)))|].
    intros m' D' _ _. rewrite D in D'. injection D' as <-. exists a, t. split; [exact An|]. split; [intros a' An'; exact (answers_one mac crc g b m a' a An' An)|]. auto.
Qed.
Print Assumptions ice_requests_answered.
Example ice_answered_ex : exists w m, y_q (fst (ex_run ex_fresh ex_probed)) = [w] /\ decode (k_bytes (w_pkt w)) = Ok m /\
  binding_request (k_bytes (w_pkt w)) /\ fingerprint_ok ex_crc (k_bytes (w_pkt w)) m /\
  g_local (nth_ag (fst (ex_run ex_fresh ex_probed)) (w_ag w)) = Some (In4 0x0a000001 35000) /\
  snd (worker ex_mac ex_crc ex_sw (fst (ex_run ex_fresh ex_probed))) <> None.
Proof. do 2 eexists. split; [vm_compute; reflexivity|]. split; [vm_compute; reflexivity|]. do 3 (split; [vm_compute; reflexivity|]). vm_compute. discriminate. Qed.

(** Whoever does not know the password changes nothing but the queue of packets to look at. *)
Theorem ice_unauthenticated_changes_nothing : forall mac crc sw pton cand_line s c local ops, Forall possible ops ->
  let y := fst (run mac crc sw pton cand_line (fresh s c local) ops) in
  forall w q, y_q y = w :: q -> (forall m, ~ authentic mac crc (nth_ag y (w_ag w)) (k_bytes (w_pkt w)) m) ->
  fst (worker mac crc sw y) = with_q y q.
Proof. intros mac crc sw pton cl s c local ops F y w q Q N. exact (unauthentic mac crc sw y w q (inv_ops mac crc sw pton cl s c local ops F) Q N). Qed.
Print Assumptions ice_unauthenticated_changes_nothing.
Example ice_unauthenticated_ex : exists w, y_q (fst (ex_run ex_fresh (ex_before ++ [RtpIn false ex_forged false false true]))) = [w] /\
  (forall m, ~ authentic ex_mac ex_crc (nth_ag (fst (ex_run ex_fresh ex_before)) 0) (k_bytes (w_pkt w)) m).
Proof.
  eexists. split; [vm_compute; reflexivity|]. intros m (D & _ & _ & I & _). vm_compute in D. injection D as <-. vm_compute in I. discriminate.
Qed.

(** An agent is completed exactly if its thread got to a packet of its queue that nominates, whatever else happened. *)
Theorem ice_completed_iff_nominated : forall mac crc sw pton cand_line s c local ops i, Forall possible ops ->
  let after l := fst (run mac crc sw pton cand_line (fresh s c local) l) in
  (done (after ops) i = true <->
   exists pre post w q, ops = pre ++ Work :: post /\ y_q (after pre) = w :: q /\ w_ag w = i /\ nominates mac crc (nth_ag (after pre) i) (w_pkt w)).
Proof.
  intros mac crc sw pton cl s c local ops i F after. unfold after. rewrite (completed_iff_nominated mac crc sw pton cl s c local ops i F). unfold nominated. split.
  - intros (pre & post & E & w & q & Q & Wi & N). exists pre, post, w, q. auto.
  - intros (pre & post & w & q & E & Q & Wi & N). exists pre, post. split; [exact E|]. exists w, q. auto.
Qed.
Print Assumptions ice_completed_iff_nominated.
Example ice_completed_ex : Forall possible ex_before /\ done (fst (ex_run ex_fresh ex_done)) 0 = true /\
  done (fst (ex_run ex_fresh (ex_probed ++ [Work]))) 0 = false.
Proof. split; [repeat constructor|]. split; vm_compute; reflexivity. Qed.

(** Where packets go. At the RTP port of a side with an agent: STUN to the agent, nothing else before completion. *)
Theorem ice_fate_of_packets : forall mac crc sw pton cand_line s c local ops k d empty chg taken st rc, Forall possible ops -> datagram k ->
  (st = true <-> RtpSpec.looks_stun (k_bytes k)) -> (rc = true <-> RtpSpec.looks_rtcp (k_bytes k)) ->
  let y := fst (run mac crc sw pton cand_line (fresh s c local) ops) in
  let own := option_map (done y) (agent_of y d) in let other := present (agent_of y (negb d)) in
  let goes at_rtcp verdict out :=
    match verdict with
    | LatchModel.Discard => out = Packet Outside 1
    | LatchModel.Accept => exists n, let x := destiny own other d at_rtcp st rc (index (agent_of y d)) in
        out = Packet x n /\ (kept x taken = true <-> n = O) /\ (kept x taken = false -> rc = false -> n = 1%nat)
    end in
  goes false (snd (LatchModel.rx (get d (y_rtp y)) (Some (get d (y_rtcp y))) empty (arrival k)))
       (snd (step mac crc sw pton cand_line y (RtpIn d k empty chg taken))) /\
  goes true (snd (LatchModel.rx (get d (y_rtcp y)) None empty (arrival k)))
       (snd (step mac crc sw pton cand_line y (RtcpIn d k empty taken))).
Proof.
  intros mac crc sw pton cl s c local ops k d empty chg taken st rc F K Hs Hr y own other goes.
  pose proof (is_st k st K Hs) as Est. pose proof (is_rc k rc K Hr) as Erc. subst st rc. clear Hs Hr. change (arrival k) with (lpkt k). pose proof (inv_ops mac crc sw pton cl s c local ops F) as V. fold y in V.
  assert (Dp : forall b, (frees y d b taken k = O <-> kept (fate_of y d b k) taken = true) /\ (kept (fate_of y d b k) taken = false -> rtcp k = false -> frees y d b taken k = 1%nat)).
  { intros b. unfold frees. destruct (kept _ _); [split; [tauto|discriminate]|]. split.
    - split; [|discriminate]. unfold depth. destruct b; [destruct (_ && _); discriminate|]. destruct (option_map _ _); [|discriminate].
      destruct (_ || _); [discriminate|]. destruct (present _); discriminate.
    - intros _ R. unfold depth. rewrite R. destruct b; [reflexivity|]. destruct (option_map _ _); [|reflexivity]. rewrite Bool.orb_true_r. reflexivity. }
  split.
  - pose proof (rtp_step mac crc sw pton cl y d k empty chg taken V K) as H. unfold let_in in H. destruct (LatchModel.rx _ _ _ _) as [[s1 c1] v]. cbn [snd].
    assert (H' : match v with LatchModel.Discard => snd (step mac crc sw pton cl y (RtpIn d k empty chg taken)) = Packet Outside 1
                 | LatchModel.Accept => snd (step mac crc sw pton cl y (RtpIn d k empty chg taken)) = Packet (fate_of y d false k) (frees y d false taken k) end).
    { destruct c1; destruct v; try (destruct H as (-> & _); reflexivity); destruct H as (y2 & -> & _); reflexivity. }
    unfold goes. destruct v; [|exact H']. exists (frees y d false taken k). split; [exact H'|]. destruct (Dp false) as (D1 & D2). split; [symmetry; exact D1|exact D2].
  - pose proof (rtcp_step mac crc sw pton cl y d k empty taken V K) as H. unfold let_in in H. destruct (LatchModel.rx _ _ _ _) as [[s1 c1] v]. cbn [snd].
    unfold goes. destruct v; destruct H as (-> & _); [|reflexivity]. exists (frees y d true taken k). split; [reflexivity|]. destruct (Dp true) as (D1 & D2). split; [symmetry; exact D1|exact D2].
Qed.
Print Assumptions ice_fate_of_packets.
Example ice_fate_ex : snd (ex_step (fst (ex_run ex_fresh ex_before)) (RtpIn false ex_media false false true)) = Packet DroppedHere 1 /\
  snd (ex_step (fst (ex_run ex_fresh ex_before)) (RtpIn false ex_nominate false false true)) = Packet (Queued 0) 0 /\
  snd (ex_step (fst (ex_run ex_fresh ex_done)) (RtpIn false ex_media false false true)) = Packet (HandedOn (Rtp false)) 0 /\
  snd (ex_step (fst (ex_run ex_fresh ex_done)) (RtpIn false ex_report false false true)) = Packet (HandedOn (Rtcp false)) 0 /\
  snd (ex_step (fst (ex_run ex_fresh ex_before)) (RtpIn true ex_media false false true)) = Packet (HandedOn (Rtp true)) 0.
Proof. do 4 (split; [vm_compute; reflexivity|]). vm_compute. reflexivity. Qed.

(** A packet that nobody takes is not always released once: an RTCP packet at the RTP port is released by the chain
    it was passed to and by the chain it came from. *)
Theorem ice_packet_released_once_refuted : exists ops k, Forall possible ops /\ datagram k /\
  snd (ex_step (fst (ex_run ex_fresh ops)) (RtpIn false k false false false)) = Packet (HandedOn (Rtcp false)) 2.
Proof.
  exists ex_done, ex_report.
  assert (Bn : forall k, forallb (fun x => (0 <=? x) && (x <? 256)) (k_bytes k) = true -> zlen (k_bytes k) < 2 ^ 40 -> address (k_src k) -> datagram k).
  { intros k A L S. split; [|split; [exact L|exact S]]. apply Forall_forall. intros x Hx. rewrite forallb_forall in A. specialize (A x Hx). lia. }
  assert (As : address ex_src) by (cbn; lia).
  split; [|split; [apply Bn; [vm_compute; reflexivity|vm_compute; reflexivity|exact As]|vm_compute; reflexivity]].
  unfold ex_done, ex_before. cbn [app]. do 3 (apply Forall_cons; [exact Logic.I|]). apply Forall_cons; [|repeat constructor].
  apply Bn; [vm_compute; reflexivity|vm_compute; reflexivity|exact As].
Qed.
Print Assumptions ice_packet_released_once_refuted.

(** The check of who sends stands at the RTP port only: at the RTCP port of a side with an agent that is not
    completed, media is let through. *)
Theorem ice_rtcp_port_guarded_refuted : exists ops k i, datagram k /\ agent_of (fst (ex_run ex_fresh ops)) false = Some i /\
  done (fst (ex_run ex_fresh ops)) i = false /\
  snd (ex_step (fst (ex_run ex_fresh ops)) (RtcpIn false k false true)) = Packet (HandedOn (Rtcp false)) 0.
Proof.
  exists ex_before, ex_stranger, O. split; [|do 2 (split; [vm_compute; reflexivity|]); vm_compute; reflexivity].
  split; [|split; [reflexivity|cbn; lia]]. apply Forall_forall. intros x Hx.
  assert (A : forallb (fun x => (0 <=? x) && (x <? 256)) (k_bytes ex_stranger) = true) by (vm_compute; reflexivity). rewrite forallb_forall in A. specialize (A x Hx). lia.
Qed.
Print Assumptions ice_rtcp_port_guarded_refuted.

(** D and U succeed exactly if the side they are about has an agent; then nothing of the module is left there and the
    stream latches as streams do. No command of the module ends the program. *)
Theorem ice_removed_completely : forall mac crc sw pton cand_line s c local ops d args rnd, Forall possible ops ->
  let y := fst (run mac crc sw pton cand_line (fresh s c local) ops) in let e := acted args d in
  snd (command pton cand_line y d args rnd) <> CAbort /\
  (parse args = Some RIL_D \/ parse args = Some RIL_U ->
   let '(y', r) := command pton cand_line y d args rnd in
   match agent_of y e with
   | None => r = CFail /\ y' = y
   | Some _ => r = COk [] /\ agent_of y' e = None /\ chain y' (Rtp e) = [] /\ chain y' (Rtcp (negb e)) = [] /\
               get e (y_rtp y') = LatchModel.with_mode (get e (y_rtp y)) LatchModel.NORMAL
   end).
Proof.
  intros mac crc sw pton cl s c local ops d args rnd F y e. pose proof (inv_ops mac crc sw pton cl s c local ops F) as V. fold y in V.
  destruct (command pton cl y d args rnd) as [y' r] eqn:E. split; [exact (proj2 (command_inv pton cl y d args rnd y' r V E))|].
  intros P. exact (removal pton cl y d args rnd y' r V P E).
Qed.
Print Assumptions ice_removed_completely.
Example ice_removed_ex : agent_of (fst (ex_run ex_fresh ex_done)) false = Some O /\ parse [B "D"] = Some RIL_D /\ parse [B "u"] = Some RIL_U /\
  snd (command ex_pton ex_line (fst (ex_run ex_fresh ex_done)) false [B "D"] (fun _ => 0)) = COk [] /\
  snd (command ex_pton ex_line (fst (ex_run ex_fresh ex_done)) true [B "D"] (fun _ => 0)) = CFail.
Proof. do 4 (split; [vm_compute; reflexivity|]). vm_compute. reflexivity. Qed.

(** A side that gave its agent up does not keep to normal latching: a packet still in the queue makes the thread of
    the module force the address of the stream. *)
Theorem ice_given_up_stays_normal_refuted : exists ops,
  agent_of (fst (ex_run ex_fresh ops)) false = None /\ LatchModel.l_mode (get false (y_rtp (fst (ex_run ex_fresh ops)))) = LatchModel.NORMAL /\
  address_of (fst (ex_run ex_fresh ops)) false = None /\
  let y' := fst (ex_step (fst (ex_run ex_fresh ops)) Work) in
  LatchModel.l_mode (get false (y_rtp y')) = LatchModel.FORCE_ON /\ address_of y' false = Some (SaIn 0x0a000009 4000).
Proof.
  exists (ex_before ++ [RtpIn false ex_nominate false false true; Command false [B "D"] (fun _ => 0)]).
  do 3 (split; [vm_compute; reflexivity|]). cbv zeta. split; vm_compute; reflexivity.
Qed.
Print Assumptions ice_given_up_stays_normal_refuted.

(** A command is about one side: the other keeps its stream, its chains and its agent. *)
Theorem ice_commands_touch_one_side : forall mac crc sw pton cand_line s c local ops d args rnd, Forall possible ops ->
  let y := fst (run mac crc sw pton cand_line (fresh s c local) ops) in
  let y' := fst (command pton cand_line y d args rnd) in
  same_side (negb (acted args d)) y y' /\ y_rtcp y' = y_rtcp y /\ y_q y' = y_q y /\ y_local y' = y_local y.
Proof.
  intros mac crc sw pton cl s c local ops d args rnd F y y'. pose proof (inv_ops mac crc sw pton cl s c local ops F) as V. fold y in V. unfold y'.
  destruct (command pton cl y d args rnd) as [z r] eqn:E. exact (command_side mac crc sw pton cl y d args rnd z r V E).
Qed.
Print Assumptions ice_commands_touch_one_side.
Example ice_one_side_ex : acted [B "S"] true = false /\ acted [B "D"] true = true /\
  agent_of (fst (ex_run ex_fresh (ex_done ++ [Command false [B "S"] (fun _ => 2)]))) true = Some 1%nat /\
  done (fst (ex_run ex_fresh (ex_done ++ [Command false [B "S"] (fun _ => 2)]))) 0 = true.
Proof. do 3 (split; [vm_compute; reflexivity|]). vm_compute. reflexivity. Qed.

(** Until its agent is completed no packet gives a side an address, and none but STUN is handled. *)
Theorem ice_no_address_before_completion : forall mac crc sw pton cand_line s c local ops k d i empty chg taken,
  Forall possible ops -> Forall (fun o => ~ gives_up o) ops -> datagram k ->
  let y := fst (run mac crc sw pton cand_line (fresh s c local) ops) in
  agent_of y d = Some i -> done y i = false ->
  let '(y', x) := step mac crc sw pton cand_line y (RtpIn d k empty chg taken) in
  y_rtp y' = y_rtp y /\ y_rtcp y' = y_rtcp y /\ (~ RtpSpec.looks_stun (k_bytes k) -> x = Packet DroppedHere 1) /\ (RtpSpec.looks_stun (k_bytes k) -> x = Packet (Queued i) 0).
Proof.
  intros mac crc sw pton cl s c local ops k d i empty chg taken F G K y A D. pose proof (inv_ops mac crc sw pton cl s c local ops F) as V.
  pose proof (stun_looks k K) as Sk.
  assert (O : owned y) by exact (owned_run mac crc sw pton cl ops _ (inv_fresh s c local) (owned_fresh mac crc sw pton s c local) F G).
  pose proof (not_yet mac crc sw pton cl y d i k empty chg taken V O K A D) as H. destruct (step _ _ _ _ _ _ _) as (y' & x). destruct H as (H1 & H2 & H3 & H4).
  split; [exact H1|]. split; [exact H2|]. split; [|intros L; apply H4, Sk, L]. intros L. apply H3. destruct (stun k); [exfalso; apply L, Sk; reflexivity|reflexivity].
Qed.
Print Assumptions ice_no_address_before_completion.
Example ice_no_address_ex : Forall (fun o => ~ gives_up o) ex_before /\ agent_of (fst (ex_run ex_fresh ex_before)) false = Some O /\
  done (fst (ex_run ex_fresh ex_before)) 0 = false /\ stun ex_media = false /\ stun ex_nominate = true.
Proof. split; [repeat constructor; intros [H|H]; discriminate H|]. do 3 (split; [vm_compute; reflexivity|]). vm_compute. reflexivity. Qed.

(** From the nomination on, the side sends to where the nominating request came from, and lets in nothing that comes
    from elsewhere. (The address the side had before the last one a command gave is not this one, or the side latched
    already; nothing was read of the stream between two locks of it.) *)
Theorem ice_address_follows_nomination : forall mac crc sw pton cand_line s c local pre post w q,
  let after l := fst (run mac crc sw pton cand_line (fresh s c local) l) in
  let ops := pre ++ Work :: post in
  Forall possible ops -> Forall (fun o => ~ gives_up o) ops -> Forall locked ops ->
  y_q (after pre) = w :: q -> done (after pre) (w_ag w) = false -> nominates mac crc (nth_ag (after pre) (w_ag w)) (w_pkt w) ->
  let d := w_side w in let from := place (k_src (w_pkt w)) in
  LatchModel.l_prev (get d (y_rtp (after pre))) <> Some from \/ LatchModel.l_latched (get d (y_rtp (after pre))) = true ->
  address_of (after ops) d = Some from /\
  forall k chg taken, datagram k -> place (k_src k) <> from -> LatchModel.l_asym (get d (y_rtp (after ops))) = false ->
    snd (step mac crc sw pton cand_line (after ops) (RtpIn d k false chg taken)) = Packet Outside 1.
Proof.
  intros mac crc sw pton cl s c local pre post w q after ops F G L Q D N d from H.
  assert (F1 : Forall possible pre) by (apply Forall_app in F; exact (proj1 F)). assert (G1 : Forall (fun o => ~ gives_up o) pre) by (apply Forall_app in G; exact (proj1 G)).
  assert (F2 : Forall possible post) by (apply Forall_app in F as (_ & F); exact (Forall_inv_tail F)).
  assert (G2 : Forall (fun o => ~ gives_up o) post) by (apply Forall_app in G as (_ & G); exact (Forall_inv_tail G)).
  assert (L2 : Forall locked post) by (apply Forall_app in L as (_ & L); exact (Forall_inv_tail L)).
  pose proof (inv_ops mac crc sw pton cl s c local pre F1) as V. fold (after pre) in V.
  assert (W : owned (after pre)) by exact (owned_run mac crc sw pton cl pre _ (inv_fresh s c local) (owned_fresh mac crc sw pton s c local) F1 G1).
  assert (E : after ops = fst (run mac crc sw pton cl (fst (step mac crc sw pton cl (after pre) Work)) post)).
  { unfold after, ops. change (Work :: post) with ([Work] ++ post). rewrite run_app, run_app, run_one. reflexivity. }
  pose proof (rests_first mac crc sw pton cl (after pre) w q V Q D N H) as R.
  assert (V1 : inv (fst (step mac crc sw pton cl (after pre) Work))) by (apply inv_step; [exact V|exact Logic.I]).
  assert (W1 : owned (fst (step mac crc sw pton cl (after pre) Work))) by (apply owned_step; [exact V|exact W|exact Logic.I|intros []]).
  pose proof (rests_run mac crc sw pton cl post (w_ag w) d from _ V1 W1 F2 G2 L2 R) as R2. rewrite <- E in R2.
  split; [exact (proj1 (proj2 (proj2 (proj2 (proj2 R2)))))|]. intros k chg taken K Nk As.
  apply (rests_keeps_out mac crc sw pton cl (after ops) (w_ag w) d from); try assumption. exact (inv_ops mac crc sw pton cl s c local ops F).
Qed.
Print Assumptions ice_address_follows_nomination.
Example ice_address_ex : exists w, y_q (fst (ex_run ex_fresh (ex_before ++ [RtpIn false ex_nominate false false true]))) = [w] /\
  nominates ex_mac ex_crc (nth_ag (fst (ex_run ex_fresh (ex_before ++ [RtpIn false ex_nominate false false true]))) (w_ag w)) (w_pkt w) /\
  address_of (fst (ex_run ex_fresh (ex_done ++ [Address false (SaIn 1 2) (SaIn 1 3) 9; RtpIn false ex_stranger false false true]))) false = Some (SaIn 0x0a000009 4000).
Proof.
  eexists. split; [vm_compute; reflexivity|]. split; [|vm_compute; reflexivity].
  unfold nominates. eexists. split; [split; [vm_compute; reflexivity|]|].
  - split; [vm_compute; reflexivity|]. split; [vm_compute; reflexivity|]. split; [vm_compute; reflexivity|].
    exists (B "AAAA:R1xy"), (B "R1xy"). split; [vm_compute; reflexivity|]. split; [|right; vm_compute; reflexivity].
    exists O, []. split; [vm_compute; reflexivity|]. split; [left; reflexivity|].
    assert (Y : forall s, forallb (fun c => negb (c =? 58) && negb (c =? 0)) s = true -> ~ In 58 s /\ ~ In 0 s).
    { intros s A. rewrite forallb_forall in A. split; intros X; specialize (A _ X); discriminate. }
    destruct (Y (B "R1xy") eq_refl) as (_ & Y2). split; [vm_compute; discriminate|]. 
    match goal with |- ~ In 58 ?l /\ _ => destruct (Y l ltac:(vm_compute; reflexivity)) as (Y3 & Y4) end. repeat (split; [assumption || (vm_compute; discriminate)|]). exact Y2.
  - split. { intros (tie & [(X & _)|(_ & X & _)] & _); [vm_compute in X; discriminate|]. apply X. eexists. split; [right; left; reflexivity|reflexivity]. }
    split. { eexists. split; [right; right; left; reflexivity|reflexivity]. }
    split. { eexists. split; [right; right; right; left; reflexivity|reflexivity]. }
    match goal with |- In _ ?l /\ _ => assert (E : l = [mkRc 1 (In4 0x0a000009 4000)]) by (vm_compute; reflexivity) end.
    rewrite E. split; [left; reflexivity|vm_compute; discriminate].
Qed.

(** A request to use another candidate after completion is granted, and the address stays. *)
Theorem ice_later_nomination_followed_refuted : exists ops w, y_q (fst (ex_run ex_fresh ops)) = [w] /\ k_src (w_pkt w) = In4 0x0a000009 4002 /\
  In (mkRc 1 (In4 0x0a000009 4002)) (g_cands (nth_ag (fst (ex_run ex_fresh ops)) 0)) /\
  k_bytes (w_pkt w) = k_bytes ex_nominate /\ address_of (fst (ex_step (fst (ex_run ex_fresh ops)) Work)) false = Some (SaIn 0x0a000009 4000).
Proof.
  set (ex_C2 := Command false [B "C"; B "1"; B "1"; B "UDP"; B "99"; B "10.0.0.9"; B "4002"; B "typ"; B "host"] (fun _ => 0)).
  exists (ex_before ++ [ex_C2; RtpIn false ex_nominate false false true; RtpIn false (mkPkt (k_bytes ex_nominate) (In4 0x0a000009 4002) 5 None) false false true; Work]).
  eexists. split; [vm_compute; reflexivity|]. split; [reflexivity|]. split.
  { match goal with |- In _ ?l => assert (E : l = [mkRc 1 (In4 0x0a000009 4000); mkRc 1 (In4 0x0a000009 4002)]) by (vm_compute; reflexivity) end.
    rewrite E. right. left. reflexivity. }
  split; [reflexivity|]. vm_compute. reflexivity.
Qed.
Print Assumptions ice_later_nomination_followed_refuted.

(** A candidate a C command describes is known from then on, and the ones known before it stay known. *)
Theorem ice_candidate_added : forall mac crc sw pton cand_line s c local ops d f comp prio addr port ty rnd a i, Forall possible ops ->
  let y := fst (run mac crc sw pton cand_line (fresh s c local) ops) in
  agent_of y d = Some i -> pton (firstn 63 addr) = Some a ->
  Forall NumSpec.digit comp -> 0 < NumSpec.place_value comp < 256 -> Forall NumSpec.digit port -> 0 <= NumSpec.place_value port < 65536 ->
  exists y', command pton cand_line y d [B "C"; f; comp; B "UDP"; prio; addr; port; B "typ"; ty] rnd = (y', COk []) /\
    In (mkRc (NumSpec.place_value comp) (at_port a (NumSpec.place_value port))) (g_cands (nth_ag y' i)) /\
    incl (g_cands (nth_ag y i)) (g_cands (nth_ag y' i)).
Proof.
  intros mac crc sw pton cl s c local ops d f comp prio addr port ty rnd a i F y A Pa D1 R1 D2 R2.
  apply (candidate_added pton cl y d f comp prio addr port ty rnd a i); try assumption. exact (inv_ops mac crc sw pton cl s c local ops F).
Qed.
Print Assumptions ice_candidate_added.
Example ice_candidate_ex : agent_of (fst (ex_run ex_fresh [ex_S])) false = Some O /\ ex_pton (firstn 63 (B "10.0.0.9")) = Some (In4 0x0a000009 0) /\
  NumSpec.place_value (B "1") = 1 /\ NumSpec.place_value (B "4000") = 4000 /\
  g_cands (nth_ag (fst (ex_run ex_fresh ex_before)) 0) = [mkRc 1 (In4 0x0a000009 4000)].
Proof. do 4 (split; [vm_compute; reflexivity|]). vm_compute. reflexivity. Qed.

(** No agent knows a candidate that a C command for its side did not describe. *)
Theorem ice_candidates_come_from_commands : forall mac crc sw pton cand_line s c local ops i x, Forall possible ops ->
  let after l := fst (run mac crc sw pton cand_line (fresh s c local) l) in
  In x (g_cands (nth_ag (after ops) i)) ->
  exists pre d args rnd post, ops = pre ++ Command d args rnd :: post /\ parse args = Some RIL_C /\
    agent_of (after pre) d = Some i /\ described pton args x.
Proof. intros mac crc sw pton cl s c local ops i x F after. exact (candidates_from mac crc sw pton cl s c local ops i x F). Qed.
Print Assumptions ice_candidates_come_from_commands.
Example ice_candidates_ex : In (mkRc 1 (In4 0x0a000009 4000)) (g_cands (nth_ag (fst (ex_run ex_fresh ex_done)) 0)).
Proof.
  match goal with |- In _ ?l => assert (E : l = [mkRc 1 (In4 0x0a000009 4000)]) by (vm_compute; reflexivity) end. rewrite E. left. reflexivity.
Qed.

(** The name and the password of an agent are of the letters and the lengths the documents ask for, and stay. *)
Theorem ice_credentials_kept : forall mac crc sw pton cand_line s c local pre post i, Forall possible (pre ++ post) ->
  let after l := fst (run mac crc sw pton cand_line (fresh s c local) l) in
  (i < length (y_ag (after pre)))%nat ->
  let g := nth_ag (after pre) i in let g' := nth_ag (after (pre ++ post)) i in
  (4 <= length (g_lufrag g))%nat /\ (22 <= length (g_lpwd g))%nat /\ Forall ice_char (g_lufrag g) /\ Forall ice_char (g_lpwd g) /\
  g_lufrag g' = g_lufrag g /\ g_lpwd g' = g_lpwd g.
Proof.
  intros mac crc sw pton cl s c local pre post i F after Hi g g'. apply Forall_app in F as (F1 & F2).
  destruct (names_ok mac crc sw pton cl s c local pre i F1 Hi) as (N1 & N2 & N3 & N4). do 4 (split; [assumption|]).
  unfold g', after. rewrite run_app. apply (names_kept mac crc sw pton cl post (after pre) i (inv_ops mac crc sw pton cl s c local pre F1) F2 Hi).
Qed.
Print Assumptions ice_credentials_kept.
Example ice_credentials_ex : length (y_ag (fst (ex_run ex_fresh [ex_S]))) = 1%nat /\ g_lufrag (nth_ag (fst (ex_run ex_fresh ex_done)) 0) = B "AAAA".
Proof. split; vm_compute; reflexivity. Qed.

(** S leaves an agent with a local candidate, and what it answers says how to reach the agent: its name, its password
    and the candidate, quoted, if that is less than the 512 bytes there is room for. *)
Theorem ice_start_reply : forall mac crc sw pton cand_line s c local ops d args rnd, Forall possible ops -> parse args = Some RIL_S ->
  let y := fst (run mac crc sw pton cand_line (fresh s c local) ops) in
  let '(y', r) := command pton cand_line y d args rnd in
  exists i la, agent_of y' (negb d) = Some i /\ let g := nth_ag y' i in
    g_local g = Some la /\
    (agent_of y (negb d) = None -> length (g_lufrag g) = 4%nat /\ length (g_lpwd g) = 24%nat /\ la = get (negb d) (y_local y)) /\
    (bytes (cand_line la) -> forall q, QuoteSpec.quoted (cand_line la) q -> zlen (g_lufrag g) + zlen (g_lpwd g) + 4 + zlen q < 512 ->
     r = COk (g_lufrag g ++ B " " ++ g_lpwd g ++ B " c:" ++ q)).
Proof.
  intros mac crc sw pton cl s c local ops d args rnd F P y. destruct (command pton cl y d args rnd) as [y' r] eqn:E.
  destruct (S_reply mac crc sw pton cl y d args rnd y' r (inv_ops mac crc sw pton cl s c local ops F)
    (fun i Hi => names_ok mac crc sw pton cl s c local ops i F Hi) P E) as (i & la & A & L & N1 & N2 & R). exists i, la. split; [exact A|]. cbv zeta.
  split; [exact L|]. split; [intros X; destruct (N1 X) as (X1 & X2); split; [exact X1|split; [exact X2|exact (N2 X)]]|exact R].
Qed.
Print Assumptions ice_start_reply.
Example ice_start_ex : parse [B "S"] = Some RIL_S /\
  snd (command ex_pton ex_line ex_fresh true [B "S"] (fun _ => 0)) = COk (B "AAAA AAAAAAAAAAAAAAAAAAAAAAAA c:1%201%20UDP%202%20h%207%20typ%20host").
Proof. split; vm_compute; reflexivity. Qed.

(** A name too long for the reply is left out of it and S still succeeds. *)
Theorem ice_start_reply_complete_refuted : exists args t, parse args = Some RIL_A /\
  snd (command ex_pton ex_line (fst (command ex_pton ex_line ex_fresh false args (fun _ => 0))) true [B "S"] (fun _ => 0)) = COk t /\
  t = B " AAAAAAAAAAAAAAAAAAAAAA c:1%201%20UDP%202%20h%207%20typ%20host".
Proof. exists [B "A"; repeat 97 513; repeat 112 22]. eexists. do 2 (split; [vm_compute; reflexivity|]). reflexivity. Qed.
Print Assumptions ice_start_reply_complete_refuted.

(** Colons in front of a user name do not matter to the agent. *)
Theorem ice_user_name_exact_refuted : exists s, user_is s (B "AAAA") (B "R1xy") /\ s <> B "AAAA:R1xy".
Proof.
  exists (B "::AAAA:R1xy"). split; [|discriminate]. exists 2%nat, []. split; [reflexivity|]. split; [left; reflexivity|].
  assert (Y : forall s, forallb (fun c => negb (c =? 58) && negb (c =? 0)) s = true -> ~ In 58 s /\ ~ In 0 s).
  { intros s A. rewrite forallb_forall in A. split; intros X; specialize (A _ X); discriminate. }
  destruct (Y (B "AAAA") eq_refl) as (Y1 & Y2), (Y (B "R1xy") eq_refl) as (_ & Y4). split; [discriminate|]. do 2 (split; [assumption|]). split; [discriminate|exact Y4].
Qed.
Print Assumptions ice_user_name_exact_refuted.

(** The commands: A with a name and a password, C with a candidate, S, D and U; in letters of either case. *)
Theorem ice_commands_known : forall ch args,
  (parse ([ch] :: args) = Some RIL_A <-> In ch (B "aA") /\ length args = 2%nat) /\
  (parse ([ch] :: args) = Some RIL_C <-> In ch (B "cC") /\ (8 <= length args)%nat) /\
  (parse ([ch] :: args) = Some RIL_S <-> In ch (B "sS") /\ args = []) /\
  (parse ([ch] :: args) = Some RIL_D <-> In ch (B "dD") /\ args = []) /\
  (parse ([ch] :: args) = Some RIL_U <-> In ch (B "uU") /\ args = []).
Proof.
  intros ch args. unfold parse. cbn [nth]. rewrite Z.lor_0_r. change (length ([ch] :: args)) with (S (length args)).
  assert (E : args = [] <-> length args = O) by (destruct args; split; intros H; try discriminate H; reflexivity). rewrite E. clear E.
  assert (I2 : forall a b : Z, In ch [a; b] <-> a = ch \/ b = ch) by (intros a b; cbn [In]; tauto).
  change (B "aA") with [97; 65]. change (B "cC") with [99; 67]. change (B "sS") with [115; 83]. change (B "dD") with [100; 68]. change (B "uU") with [117; 85]. rewrite !I2. clear I2.
  destruct ((ch =? 97) || (ch =? 65)) eqn:E1.
  { destruct (Nat.eqb_spec (S (length args)) 3); do 4 (split; [split; intros Q; [try discriminate Q; lia|try reflexivity; exfalso; lia]|]); (split; intros Q; [try discriminate Q; lia|try reflexivity; exfalso; lia]). }
  destruct ((ch =? 99) || (ch =? 67)) eqn:E2.
  { destruct (Nat.ltb_spec (S (length args)) 9); do 4 (split; [split; intros Q; [try discriminate Q; lia|try reflexivity; exfalso; lia]|]); (split; intros Q; [try discriminate Q; lia|try reflexivity; exfalso; lia]). }
  destruct ((ch =? 115) || (ch =? 83)) eqn:E3.
  { destruct (Nat.eqb_spec (S (length args)) 1); do 4 (split; [split; intros Q; [try discriminate Q; lia|try reflexivity; exfalso; lia]|]); (split; intros Q; [try discriminate Q; lia|try reflexivity; exfalso; lia]). }
  destruct ((ch =? 100) || (ch =? 68)) eqn:E4.
  { destruct (Nat.eqb_spec (S (length args)) 1); do 4 (split; [split; intros Q; [try discriminate Q; lia|try reflexivity; exfalso; lia]|]); (split; intros Q; [try discriminate Q; lia|try reflexivity; exfalso; lia]). }
  destruct ((ch =? 117) || (ch =? 85)) eqn:E5.
  { destruct (Nat.eqb_spec (S (length args)) 1); do 4 (split; [split; intros Q; [try discriminate Q; lia|try reflexivity; exfalso; lia]|]); (split; intros Q; [try discriminate Q; lia|try reflexivity; exfalso; lia]). }
  do 4 (split; [split; intros Q; [try discriminate Q; lia|try reflexivity; exfalso; lia]|]); (split; intros Q; [try discriminate Q; lia|try reflexivity; exfalso; lia]).
Qed.
Print Assumptions ice_commands_known.
Example ice_commands_known_ex : parse [B "a"; B "name"; B "secret"] = Some RIL_A /\ parse [B "S"; B "x"] = None.
Proof. split; reflexivity. Qed.

(** Two letters are taken for one: "ab" is the command C. *)
Theorem ice_command_names_exact_refuted : parse (B "ab" :: repeat [] 8) = Some RIL_C /\ parse [B "`A"; []; []] = Some RIL_A.
Proof. split; vm_compute; reflexivity. Qed.
Print Assumptions ice_command_names_exact_refuted.
