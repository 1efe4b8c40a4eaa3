(** C69: packets read from a socket. *)
From Verif Require Import Base RcvfModel RcvfSpec RcvfProof.

(** A packet is the first datagram waiting, which is taken, with its sender, the port of the socket, the address it
    was sent to, or the one of the socket when the kernel gives none, and the time of the poll when it gives none *)
Theorem rcvf_packet buflen ra d q : 0 <= buflen ->
  exists p, recv_ts buflen ra (IPkt d :: q) = (q, Some p) /\ packet_of buflen ra d p.
Proof.
  intros H0. unfold recv_ts, next, recvfromto. destruct (cmsg_loop (d_cmsgs d) (0, 0)) as [to t] eqn:E.
  destruct (match a_time ra with None => _ | Some _ => _ end) as [w m] eqn:T. eexists. split; [reflexivity|].
  split; cbn [p_data p_size p_raddr p_laddr p_lport p_wall p_mono].
  - apply cut_spec.
  - split; [reflexivity | now apply cut_len].
  - reflexivity.
  - reflexivity.
  - intros a A. apply (loop_dst _ (0, 0)) in A. rewrite E in A. cbn [fst] in A. now rewrite A.
  - intros A. apply (loop_nodst _ (0, 0)) in A. rewrite E in A. cbn [fst] in A. now rewrite A.
  - destruct (a_time ra) as [[wall mono]|]; now injection T as <- <-.
  - intros A. rewrite A in T. now injection T as <- <-.
  - intros wall mono A N. rewrite A in T. pose proof (loop_nostamp (d_cmsgs d) (0, 0)) as L. rewrite E in L. cbn [snd] in L.
    rewrite L in T by (intros s u I; apply (N s u), before_sub, I). now injection T as <- <-.
Qed.
Print Assumptions rcvf_packet.
Example rcvf_packet_ex :
  recv_ts 4 (RArg (Some (50, 7)) (0, 9000) 9000) [IPkt (Dgram [1; 2; 3; 4; 5] (8, 90) [COther; CTime 3 2; CDst 6]); IErr]
  = ([IErr], Some (Pkt [1; 2; 3; 4] 4 (8, 90) (6, 9000) 9000 (Some 3000002000) (Some 7))).
Proof. reflexivity. Qed.

(** The time is the kernel's when the kernel gives it before the address *)
Theorem rcvf_time_partial buflen ra d q p :
  recv_ts buflen ra (IPkt d :: q) = (q, Some p) -> kernel_time ra (before_dst (d_cmsgs d)) p.
Proof.
  unfold recv_ts, next, recvfromto. intros E s u A S Hs Hu. pose proof (loop_stamp _ (0, 0) _ _ S) as L.
  destruct (cmsg_loop (d_cmsgs d) (0, 0)) as [to t]. cbn [snd] in L. subst t. cbn [fst snd] in E.
  destruct (a_time ra) as [[wall mono]|]; [|congruence]. destruct (Z.eqb_spec s 0); [lia|]. cbn [andb] in E.
  apply (f_equal snd) in E. cbn [snd] in E. injection E as <-. reflexivity.
Qed.
Print Assumptions rcvf_time_partial.
Example rcvf_time_ex : stamped (before_dst [CTime 3 2; CDst 6]) 3 2.
Proof. exists [], []. split; [reflexivity|]. intros s u []. Qed.

(** "The time is the kernel's whenever it gives one" is false: the messages after the address are not looked at *)
Theorem rcvf_time_refuted :
  ~ (forall buflen ra d q p, recv_ts buflen ra (IPkt d :: q) = (q, Some p) -> kernel_time ra (d_cmsgs d) p).
Proof.
  intros H. specialize (H 4 (RArg (Some (50, 7)) (0, 9000) 9000) (Dgram [1] (8, 90) [CDst 6; CTime 3 2]) [] _ eq_refl 3 2).
  assert (N : Some (50, 7) <> None) by discriminate. specialize (H N).
  assert (S : stamped [CDst 6; CTime 3 2] 3 2) by (exists [CDst 6], []; split; [reflexivity | intros s u []]).
  specialize (H S ltac:(lia) ltac:(lia)). discriminate.
Qed.
Print Assumptions rcvf_time_refuted.

(** Without timestamps: the same packet with the time of the poll and the address of the socket *)
Theorem rcvf_simple buflen ra d q : 0 <= buflen ->
  exists p, recv_simple buflen ra (IPkt d :: q) = (q, Some p) /\ packet_of buflen ra (Dgram (d_data d) (d_from d) []) p.
Proof.
  intros H0. unfold recv_simple, next. eexists. split; [reflexivity|]. split; cbn [p_data p_size p_raddr p_laddr p_lport p_wall p_mono d_data d_from d_cmsgs].
  - apply cut_spec.
  - split; [reflexivity | now apply cut_len].
  - reflexivity.
  - reflexivity.
  - intros a (l1 & l2 & E & _). destruct l1; discriminate.
  - reflexivity.
  - reflexivity.
  - intros ->. reflexivity.
  - intros w m -> _. reflexivity.
Qed.
Print Assumptions rcvf_simple.
Example rcvf_simple_ex : recv_simple 4 (RArg (Some (50, 7)) (0, 9000) 9000) [IPkt (Dgram [1; 2] (8, 90) [CDst 6])]
  = ([], Some (Pkt [1; 2] 2 (8, 90) (0, 9000) 9000 (Some 50) (Some 7))).
Proof. reflexivity. Qed.

(** No packet is made of nothing or of an error, and no more than the error is taken *)
Theorem rcvf_none buflen ra q : recv_ts buflen ra [] = ([], None) /\ recv_simple buflen ra [] = ([], None)
  /\ recv_ts buflen ra (IErr :: q) = (q, None) /\ recv_simple buflen ra (IErr :: q) = (q, None).
Proof. repeat split. Qed.
Print Assumptions rcvf_none.

(** "A packet is never cut" is false: the rest of a datagram longer than the buffer is lost without notice *)
Theorem rcvf_whole_refuted :
  ~ (forall ra d q p, recv_ts max_rpkt_len ra (IPkt d :: q) = (q, Some p) -> p_data p = d_data d).
Proof.
  intros H. set (d := Dgram (repeat 7 (Z.to_nat 8193)) (8, 90) []). destruct (rcvf_packet max_rpkt_len (RArg None (0, 9) 9) d [] ltac:(unfold max_rpkt_len; lia)) as (p & E & P).
  specialize (H _ _ _ _ E). destruct (po_size _ _ _ _ P) as [S L]. rewrite S, H in L. cbn [d d_data] in L. rewrite repeat_length in L. unfold max_rpkt_len in L. lia.
Qed.
Print Assumptions rcvf_whole_refuted.

(** Draining ends; it discards the datagrams up to the first error, or all that are waiting, and counts them *)
Theorem rcvf_drain q : exists n q', drain q (S (length q)) = Some (q', n) /\
  exists ds, n = Z.of_nat (length ds) /\ (q = map IPkt ds /\ q' = [] \/ q = map IPkt ds ++ IErr :: q').
Proof. apply drain_ok. Qed.
Print Assumptions rcvf_drain.
Example rcvf_drain_ex : drain [IPkt (Dgram [1] (8, 90) []); IPkt (Dgram [2] (8, 90) []); IErr; IErr] 5 = Some ([IErr], 2).
Proof. reflexivity. Qed.

(** "After draining nothing is waiting" is false: an error, as of an ICMP message, ends it *)
Theorem rcvf_drain_all_refuted : ~ (forall q fuel q' n, drain q fuel = Some (q', n) -> q' = []).
Proof. intros H. specialize (H [IErr; IPkt (Dgram [1] (8, 90) [])] 3%nat _ _ eq_refl). discriminate. Qed.
Print Assumptions rcvf_drain_all_refuted.
