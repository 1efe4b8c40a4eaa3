(** Model of src/rtpp_pcount.c (concurrent packet counters) and of the per-stream counters of
    src/rtpp_pcnt_strm.c *)
From Verif Require Import Base.

(** struct rtpp_pcount_loc, src/rtpp_pcount.c:56-59: code location (NULL = [None]; a location is
    identified by its address) and counter. *)
Notation ploc := (option Z * Z)%type.

(** struct rtpp_pcount_priv, src/rtpp_pcount.c:48-65 *)
Record pcount := mkPcount { nrelayed : Z; ndropped : Z; nignored : Z; locs : list ploc }.

(** TOP_DROPS_SIZE, src/rtpp_pcount.c:54 *)
Definition TOP_DROPS_SIZE : nat := 4.

(** rtpp_pcount_ctor, src/rtpp_pcount.c:82-103 *)
Definition pcount_ctor : pcount := mkPcount 0 0 0 (repeat (None, 0) TOP_DROPS_SIZE).

(** Registrations a thread can start; a drop names the code location [mlp] (never NULL: HEREVAL). *)
Inductive pc_op := PReld | PDrop (mlp : Z) | PIgnr.

(** Where a thread is inside rtpp_pcount_reg_drop, src/rtpp_pcount.c:121-144. *)
Inductive pc_at :=
| PIdle
| PLoad (i : nat) (mlp : Z)        (* about to load top_drop_locs[i].ptr, line 133 *)
| PCas (i : nat) (mlp : Z)         (* loaded NULL; about to compare-and-exchange, line 135 *)
| PAdd (i : nat) (mlp : Z).        (* about to add to top_drop_locs[i].cnt, line 141 *)

(** One atomic access of a thread at [a]; an idle thread starts [o]. Sequentially consistent
    interleaving of the individual atomic operations (each location is accessed by atomic
    read-modify-writes only, so relaxed ordering shows no other behaviour per location). *)
Definition pc_access (p : pcount) (a : pc_at) (o : pc_op) : pcount * pc_at :=
  match a with
  | PIdle =>
      match o with
      (* rtpp_pcount_reg_reld, src/rtpp_pcount.c:112-119 *)
      | PReld => (mkPcount (u64 (nrelayed p + 1)) (ndropped p) (nignored p) (locs p), PIdle)
      (* rtpp_pcount_reg_drop, src/rtpp_pcount.c:127 *)
      | PDrop mlp => (mkPcount (nrelayed p) (u64 (ndropped p + 1)) (nignored p) (locs p), PLoad 0 mlp)
      (* rtpp_pcount_reg_ignr, src/rtpp_pcount.c:166-173 *)
      | PIgnr => (mkPcount (nrelayed p) (ndropped p) (u64 (nignored p + 1)) (locs p), PIdle)
      end
  | PLoad i mlp =>
      match nth_error (locs p) i with
      | None => (p, PIdle)                                   (* loop ended, line 129 *)
      | Some (None, _) => (p, PCas i mlp)
      | Some (Some q, _) => if q =? mlp then (p, PAdd i mlp) else (p, PLoad (S i) mlp)
      end
  | PCas i mlp =>
      match nth_error (locs p) i with
      | Some (None, c) =>
          (mkPcount (nrelayed p) (ndropped p) (nignored p) (upd (locs p) i (Some mlp, c)), PAdd i mlp)
      | _ => (p, PLoad i mlp)                                (* goto retry *)
      end
  | PAdd i mlp =>
      match nth_error (locs p) i with
      | Some (q, c) =>
          (mkPcount (nrelayed p) (ndropped p) (nignored p) (upd (locs p) i (q, u64 (c + 1))), PIdle)
      | None => (p, PIdle)
      end
  end.

(** The system: shared counters, the threads, and (ghost) the registrations started so far. *)
Record pc_sys := mkPcSys { ps_cnt : pcount; ps_thr : list pc_at; ps_started : list pc_op }.

Definition pc_init (nthreads : nat) : pc_sys := mkPcSys pcount_ctor (repeat PIdle nthreads) [].

(** A schedule entry: the thread to run, and what it starts if it is idle. *)
Definition pc_step (s : pc_sys) (e : nat * pc_op) : pc_sys :=
  match nth_error (ps_thr s) (fst e) with
  | None => s
  | Some a =>
      let (p', a') := pc_access (ps_cnt s) a (snd e) in
      mkPcSys p' (upd (ps_thr s) (fst e) a')
              (match a with PIdle => ps_started s ++ [snd e] | _ => ps_started s end)
  end.

Definition pc_run (nthreads : nat) (sched : list (nat * pc_op)) : pc_sys :=
  fold_left pc_step sched (pc_init nthreads).

(** rtpp_pcount_get_stats, src/rtpp_pcount.c:175-184 *)
Definition pcount_get_stats (p : pcount) : Z * Z * Z := (nrelayed p, ndropped p, nignored p).

(** rtpp_pcount_log_drops, src/rtpp_pcount.c:146-163: the lines it logs. *)
Fixpoint pcount_log_drops (l : list ploc) : list (Z * Z) :=
  match l with
  | [] => []
  | (None, _) :: _ => []
  | (Some mlp, c) :: t => if c =? 0 then pcount_log_drops t else (mlp, c) :: pcount_log_drops t
  end.

(** struct rtpp_pcnts_strm (src/rtpp_pcnts_strm.h). Times are exact ([Z] ticks) instead of
    doubles; of a time stamp only the monotonic part is kept with the wall clock beside it. *)
Record pcnts := mkPcnts { npkts_in : Z; first_mono : Z; first_wall : Z; last_mono : Z; last_wall : Z;
                          longest_ipi : Z }.

(** rtpp_pcnt_strm_ctor, src/rtpp_pcnt_strm.c:66-87 (zeroed memory) *)
Definition pcnts_ctor : pcnts := mkPcnts 0 0 0 0 0 0.

(** rtpp_pcnt_strm_reg_pktin, src/rtpp_pcnt_strm.c:108-132: one critical section. *)
Definition reg_pktin (c : pcnts) (rtime : Z * Z) : pcnts :=
  let (mono, wall) := rtime in
  let '(fm, fw, lipi) :=
    if first_mono c =? 0 then (mono, wall, longest_ipi c)
    else let ipi := Z.abs (mono - last_mono c) in
         (first_mono c, first_wall c, if longest_ipi c <? ipi then ipi else longest_ipi c) in
  let '(lm, lw) := if last_mono c <? mono then (mono, wall) else (last_mono c, last_wall c) in
  mkPcnts (u64 (npkts_in c + 1)) fm fw lm lw lipi.
