(** What the administrator expects of port allocation. *)
From Verif Require Import Base PortModel.

(** The even ports of the range, in order. *)
Definition ports (mn mx : Z) : list Z :=
  map (fun k => mn + 2 * Z.of_nat k) (seq 0 (Z.to_nat ((mx - mn) / 2 + 1))).

(** A pair (p, p+1) that contains the control port. *)
Definition hits_ctl (ctl p : Z) : Prop := ctl = p \/ ctl = p + 1.
Definition hits_ctlb (ctl p : Z) : bool := (ctl =? p) || (ctl =? p + 1).

(** How an allocation ended, given the ports tried and the answers. *)
Definition all_busy (offs : list (Z * ptu)) : Prop := Forall (fun x => snd x = PtuOneMore) offs.
Definition taken (offs : list (Z * ptu)) (p : Z) : Prop :=
  exists l, offs = l ++ [(p, PtuOk)] /\ all_busy l.
Definition broken (offs : list (Z * ptu)) (p : Z) : Prop :=
  exists l, offs = l ++ [(p, PtuBrkErr)] /\ all_busy l.
Definition verdict (offs : list (Z * ptu)) (rc : Z) : Prop :=
  (rc = 0 /\ exists p, taken offs p) \/
  (rc = -1 /\ (all_busy offs \/ exists p, broken offs p)).

(** Sequential mode: candidates in cyclic order after the last port used [q]. *)
Definition cyclic_after (l : list Z) (q : Z) : list Z :=
  filter (fun p => q <? p) l ++ filter (fun p => p <? q) l.

(** Try a list of candidates until one is not busy. *)
Fixpoint try_ports {W} (use : W -> Z -> ptu * W) (w : W) (l : list Z)
  : list (Z * ptu) * W * Z :=
  match l with
  | [] => ([], w, -1)
  | p :: t =>
      match use w p with
      | (PtuOk, w') => ([(p, PtuOk)], w', 0)
      | (PtuBrkErr, w') => ([(p, PtuBrkErr)], w', -1)
      | (PtuOneMore, w') => let '(offs, w'', rc) := try_ports use w' t in ((p, PtuOneMore) :: offs, w'', rc)
      end
  end.

(** The last port used after an allocation that tried [offs]. *)
Definition next_last (q : Z) (offs : list (Z * ptu)) : Z :=
  match rev offs with
  | (p, PtuOk) :: _ | (p, PtuBrkErr) :: _ => p
  | _ => q
  end.

(** A whole history of allocations in sequential mode; [q] is the last port used. *)
Fixpoint seq_hist {W} (mn mx ctl : Z) (uses : list (W -> Z -> ptu * W)) (q : Z) (w : W)
  : W * list (list (Z * ptu) * Z) :=
  match uses with
  | [] => (w, [])
  | use :: t =>
      let cands := filter (fun p => negb (hits_ctlb ctl p)) (cyclic_after (ports mn mx) q) in
      let '(offs, w', rc) := try_ports use w cands in
      let (w'', outs) := seq_hist mn mx ctl t (next_last q offs) w' in
      (w'', (offs, rc) :: outs)
  end.

(** Result of a listener creation. *)
Definition pair_open (n : net) (n' : net) (lo : lst_out) (p : Z) : Prop :=
  exists f0 f1, f0 <> f1 /\ lo = mkLo (Some f0) (Some f1) p /\
    ~ In f0 (map fst (n_open n)) /\ ~ In f1 (map fst (n_open n)) /\
    n_open n' = n_open n ++ [(f0, p); (f1, p + 1)].

(** Socket numbers are fresh. *)
Definition fresh_next (n : net) : Prop := Forall (fun e => fst e < n_next n) (n_open n).
