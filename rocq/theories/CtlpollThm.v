(** C43: the control connections. *)
From Verif Require Import Base CtlpollModel CtlpollSpec CtlpollProof.
Local Opaque MAXC.

(** In one round every connection is treated exactly as its own events and result demand, in table
    order: served at most once, closed at most once, removed exactly when closed; no array is
    overrun. *)
Theorem round_exact : forall p cs ev rv, table p cs -> exists p' wake,
  step p (Round ev rv) = Some (p', wake ++ concat (map (fun c => acts (ev (cc_id c)) (rv (cc_id c)) c) cs)) /\
  (wake = [] \/ wake = [Wake]) /\
  table p' (filter (fun c => negb (closed (ev (cc_id c)) (rv (cc_id c)) c)) cs).
Proof. intros p cs ev rv T. exact (round_table p cs ev rv T). Qed.
Print Assumptions round_exact.

(** A new connection is appended, or closed at once when there are 99 already. *)
Theorem accept_exact : forall p cs c, table p cs ->
  (Z.of_nat (length cs) < 99 /\ exists p', step p (Accept c) = Some (p', []) /\ table p' (cs ++ [c])) \/
  (99 <= Z.of_nat (length cs) /\ step p (Accept c) = Some (p, [Closed (cc_id c)])).
Proof. exact accept_table. Qed.
Print Assumptions accept_exact.

(** Over any history no array is overrun and every connection that came up is either still in the
    table or has been closed exactly once. *)
Theorem connections_conserved : forall init es, Z.of_nat (length init) <= 100 -> exists p0 p tr cs,
  init_pollset init = Some p0 /\ run p0 es = Some (p, tr) /\ table p cs /\
  forall id, (closes id tr + present id cs = present id init + comes id es)%nat.
Proof.
  intros init es H. destruct (init_table init H) as (p0 & E0 & T0). destruct (run_table es p0 init T0) as (p & tr & cs & E & T & C).
  exists p0, p, tr, cs. auto.
Qed.
Print Assumptions connections_conserved.

(** With more than 100 configured sockets the start-up writes beyond the table. *)
Theorem init_overflow_refuted : forall init, 100 < Z.of_nat (length init) -> init_pollset init = None.
Proof. exact init_oob. Qed.
Print Assumptions init_overflow_refuted.

Definition ex_conns : list cconn := [mkCc 1 UDP4 false; mkCc 2 STDIO true].
Example round_ex : exists p0 p tr, init_pollset ex_conns = Some p0 /\
  run p0 [Accept (mkCc 7 TCP4 false); Accept (mkCc 8 IFSUN false); Round (fun i => ((i =? 7)%nat || (i =? 8)%nat || (i =? 1)%nat, (i =? 2)%nat)) (fun _ => 0)] = Some (p, tr) /\
  tr = [Served 1; Shutdown; Closed 2; Served 7; Served 8; Closed 8] /\ used p = 3%nat.
Proof. eexists. eexists. eexists. split; [vm_compute; reflexivity|]. split; [vm_compute; reflexivity|]. split; reflexivity. Qed.
