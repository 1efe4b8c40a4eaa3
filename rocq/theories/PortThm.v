(** C04 (media port allocation) and C26 (listener pairs). *)
From Verif Require Import Base PortModel PortSpec PortProof.
From Coq Require Import Permutation.

(** C04. For every range, control port, mode, random generator and history of allocations with
    arbitrary callbacks: no access outside the table, the table stays a permutation of the range,
    every port offered is an even port of the range whose pair does not contain the control port,
    and each allocation ends as it must: success exactly with the accepted port offered last,
    failure after a hard error or after only busy answers. *)
Theorem port_allocation_sound :
  forall (W : Type) (rnd : W -> nat * W) mn mx sq ctl uses w,
  0 <= mn <= mx /\ mx <= 65535 /\ mn mod 2 = 0 /\ 0 <= ctl < 65536 ->
  exists pt w1 pt' w2 outs,
    pt_ctor rnd mn mx sq ctl w = Some (pt, w1) /\
    gp_hist rnd uses pt w1 = Some (pt', w2, outs) /\
    Permutation (pt_tab pt') (ports mn mx) /\ length outs = length uses /\
    Forall (fun o => Forall (fun x => In (fst x) (ports mn mx) /\ ~ hits_ctl ctl (fst x)) (fst o)
                     /\ verdict (fst o) (snd o)) outs.
Proof. exact @port_alloc_lemma. Qed.
Print Assumptions port_allocation_sound.

(** C04, sequential mode (-S / seq_ports): the allocations are exactly those of the plain
    cyclic walk over the range starting after the last port used. *)
Theorem port_allocation_sequential :
  forall (W : Type) (rnd : W -> nat * W) mn mx ctl uses w,
  0 <= mn <= mx /\ mx <= 65535 /\ mn mod 2 = 0 /\ 0 <= ctl < 65536 ->
  exists pt pt', pt_ctor rnd mn mx true ctl w = Some (pt, w) /\
    gp_hist rnd uses pt w =
      Some (pt', fst (seq_hist mn mx ctl uses (mn + 2 * ((mx - mn) / 2)) w),
                 snd (seq_hist mn mx ctl uses (mn + 2 * ((mx - mn) / 2)) w)).
Proof. exact @port_seq_lemma. Qed.
Print Assumptions port_allocation_sequential.

(** C04, sequential mode: no port is offered twice by one allocation. *)
Theorem port_offered_once_sequential :
  forall W mn mx ctl (uses : list (W -> Z -> ptu * W)) q w,
  Forall (fun o => NoDup (map fst (fst o))) (snd (seq_hist mn mx ctl uses q w)).
Proof. exact @seq_hist_nodup. Qed.
Print Assumptions port_offered_once_sequential.

(** C04: both ports of every pair lie inside the range given by the administrator. *)
Theorem port_pairs_inside_user_range :
  forall m M mn mx, 1 <= m <= 65535 -> 1 <= M <= 65535 -> norm_ports m M = Some (mn, mx) ->
  0 <= mn <= mx /\ mx <= 65535 /\ mn mod 2 = 0 /\ m <= mn /\ mx + 1 <= M /\
  (forall p, In p (ports mn mx) -> m <= p /\ p + 1 <= M /\ p mod 2 = 0).
Proof. exact norm_ports_ok. Qed.
Print Assumptions port_pairs_inside_user_range.

(** A counter as world: [random()] returns 0, 1, 2, ...; the callback always answers "busy". *)
Definition cnt_rnd (w : nat) : nat * nat := (w, S w).
Definition busy (w : nat) (p : Z) : ptu * nat := (PtuOneMore, w).
(** All ports but [free] are busy. *)
Definition only (free : Z) (w : nat) (p : Z) : ptu * nat := (if p =? free then PtuOk else PtuOneMore, w).

(** C04, random mode: "each candidate at most once" is false: the table is reshuffled while it is
    being walked, and one allocation can offer the same port several times and others never. *)
Theorem port_offered_once_random_refuted :
  exists pt w1 pt' w2 offs,
    pt_ctor cnt_rnd 2000 2006 false 22222 1%nat = Some (pt, w1) /\
    get_port cnt_rnd busy pt w1 = Some (pt', w2, offs, -1) /\
    map fst offs = [2000; 2000; 2000].
Proof. eexists _, _, _, _, _. repeat split; vm_compute; reflexivity. Qed.
Print Assumptions port_offered_once_random_refuted.

(** C04: an allocation may fail although an eligible port of the range is free, because the port
    taken last is never tried again: here 2000 was allocated, has been released since (it is the
    only free one), and the next allocation fails. *)
Theorem port_free_but_refused_refuted :
  exists pt w1 pt1 w2 offs1 pt2 w3 offs2,
    pt_ctor cnt_rnd 2000 2004 true 22222 0%nat = Some (pt, w1) /\
    get_port cnt_rnd (only 2000) pt w1 = Some (pt1, w2, offs1, 0) /\
    get_port cnt_rnd (only 2000) pt1 w2 = Some (pt2, w3, offs2, -1) /\
    In 2000 (ports 2000 2004) /\ ~ hits_ctl 22222 2000.
Proof. eexists _, _, _, _, _, _, _, _. repeat split; try (vm_compute; reflexivity); [left; reflexivity|intros [H|H]; discriminate]. Qed.
Print Assumptions port_free_but_refused_refuted.

(** The hypotheses are met and the outputs are non-trivial: range 2000-2009, control port 2003:
    the pair 2002/2003 is skipped; 2006 is taken, then the walk resumes at 2008 and wraps. *)
Example port_allocation_ex :
  norm_ports 1999 2010 = Some (2000, 2008) /\ ports 2000 2008 = [2000; 2002; 2004; 2006; 2008] /\
  match pt_ctor cnt_rnd 2000 2008 true 2003 0%nat with
  | Some (pt, w) =>
      match gp_hist cnt_rnd [only 2006; busy] pt w with
      | Some (_, _, outs) =>
          outs = [([(2000, PtuOneMore); (2004, PtuOneMore); (2006, PtuOk)], 0);
                  ([(2008, PtuOneMore); (2000, PtuOneMore); (2004, PtuOneMore)], -1)] /\
          outs = snd (seq_hist 2000 2008 2003 [only 2006; busy] 2008 w)
      | None => False
      end
  | None => False
  end.
Proof. vm_compute. repeat split. Qed.

(** C26. Creating a listener over any table produced by the constructor and previous allocations,
    whatever the operating system answers: either two fresh sockets bound to p and p+1 are the only
    new open sockets, p is an even port of the range clear of the control port, and p is reported;
    or nothing stays open and the caller's variables are cleared / unchanged. *)
Theorem listener_pair_atomic :
  forall mn mx ctl pt n p0,
  0 <= mn <= mx /\ mx <= 65535 /\ mn mod 2 = 0 /\ 0 <= ctl < 65536 ->
  Permutation (pt_tab pt) (ports mn mx) -> 0 <= pt_idx pt < Z.of_nat (length (pt_tab pt)) -> pt_ctl pt = ctl ->
  fresh_next n ->
  exists pt' n' lo offs rc, rtpp_create_listener pt n p0 = Some (pt', (n', lo), offs, rc) /\
    ((rc = 0 /\ exists p, In p (ports mn mx) /\ ~ hits_ctl ctl p /\ pair_open n n' lo p) \/
     (rc = -1 /\ n_open n' = n_open n /\ lo = mkLo None None p0)).
Proof. exact listener_lemma. Qed.
Print Assumptions listener_pair_atomic.

(** The second socket of 2000 cannot be bound, then 2002/2003 work; and an out of sockets case. *)
Example listener_pair_ex :
  let os1 k := nth k [OsOk; OsBindInUse; OsOk; OsOk] OsNoSocket in
  let os2 k := nth k [OsOk; OsBindInUse; OsOk; OsNonblockFail] OsNoSocket in
  let pt := mkPt (ports 2000 2008) 4 9000 true in
  let n0 os := mkNet [(1, 80)] 5 os 0 (fun _ => 0%nat) 0 in
  fresh_next (n0 os1) /\
  match rtpp_create_listener pt (n0 os1) 0, rtpp_create_listener pt (n0 os2) 0 with
  | Some (_, (n', lo), _, rc), Some (_, (n'', lo'), _, rc') =>
      rc = 0 /\ n_open n' = [(1, 80); (7, 2002); (8, 2003)] /\ lo = mkLo (Some 7) (Some 8) 2002 /\
      rc' = -1 /\ n_open n'' = [(1, 80)] /\ lo' = mkLo None None 0
  | _, _ => False
  end.
Proof. split; [repeat constructor|]. vm_compute. repeat split. Qed.
