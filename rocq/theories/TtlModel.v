(** Model of src/rtpp_ttl.c, the TTL part of src/rtpp_pipe.c and the idle sweep of
    src/rtpp_proc_ttl.c *)
From Verif Require Import Base.

(** struct rtpp_ttl_priv, src/rtpp_ttl.c:40-44; both fields are C ints. *)
Record ttl := mkTtl { max_ttl : Z; cur_ttl : Z }.

(** rtpp_ttl_ctor, src/rtpp_ttl.c:59-75 *)
Definition ttl_ctor (m : Z) : ttl := mkTtl m m.
(** rtpp_ttl_reset, src/rtpp_ttl.c:84-93. Simplification: the load of max_ttl and the
    store to ttl are one step here; TtlRace models them as two. *)
Definition ttl_reset (t : ttl) : ttl := mkTtl (max_ttl t) (max_ttl t).
(** rtpp_ttl_reset_with, src/rtpp_ttl.c:95-103 *)
Definition ttl_reset_with (t : ttl) (m : Z) : ttl := mkTtl m m.
(** rtpp_ttl_get_remaining, src/rtpp_ttl.c:105-116 *)
Definition ttl_get (t : ttl) : Z := if cur_ttl t <? 0 then 0 else cur_ttl t.
(** rtpp_ttl_decr, src/rtpp_ttl.c:118-129: atomic fetch_sub (wraps silently), returns
    the clamped old value. *)
Definition ttl_decr (t : ttl) : ttl * Z :=
  (mkTtl (max_ttl t) (s32 (cur_ttl t - 1)), if cur_ttl t <? 0 then 0 else cur_ttl t).

Inductive ttl_op := TReset | TResetWith (m : Z) | TDecr | TGet.
Definition ttl_step (t : ttl) (o : ttl_op) : ttl * option Z :=
  match o with
  | TReset => (ttl_reset t, None)
  | TResetWith m => (ttl_reset_with t m, None)
  | TDecr => let (t', r) := ttl_decr t in (t', Some r)
  | TGet => (t, Some (ttl_get t))
  end.

(** The two-access version of reset used for the race analysis: [RLoad] is
    src/rtpp_ttl.c:91, [RStore] is line 92; [WMax]/[WTtl] are lines 101 and 102. *)
Inductive ttl_atom := RLoad | RStore | WMax (m : Z) | WTtl (m : Z) | ADecr.
Record ttl_race := mkRace { rc_t : ttl; rc_reg : Z (* local max_ttl of the resetting thread *) }.
Definition ttl_atom_step (s : ttl_race) (a : ttl_atom) : ttl_race :=
  let t := rc_t s in
  match a with
  | RLoad => mkRace t (max_ttl t)
  | RStore => mkRace (mkTtl (max_ttl t) (rc_reg s)) (rc_reg s)
  | WMax m => mkRace (mkTtl m (cur_ttl t)) (rc_reg s)
  | WTtl m => mkRace (mkTtl (max_ttl t) m) (rc_reg s)
  | ADecr => mkRace (fst (ttl_decr t)) (rc_reg s)
  end.

(** The TTL objects of an RTP pipe: src/rtpp_session.c:150-190 creates either one object
    shared by both streams, or (TTL_INDEPENDENT mode) one per stream. *)
Inductive pipe_ttl := Shared (t : ttl) | Indep (t0 t1 : ttl).

(** Which of the two streams of the pipe. *)
Inductive side := SideO | SideA.

(** rtpp_pipe_get_ttl, src/rtpp_pipe.c:166-174 *)
Definition pipe_get_ttl (p : pipe_ttl) : Z :=
  match p with
  | Shared t => Z.min (ttl_get t) (ttl_get t)
  | Indep t0 t1 => Z.min (ttl_get t0) (ttl_get t1)
  end.
(** rtpp_pipe_decr_ttl, src/rtpp_pipe.c:176-183 *)
Definition pipe_decr_ttl (p : pipe_ttl) : pipe_ttl :=
  match p with
  | Shared t => Shared (fst (ttl_decr t))
  | Indep t0 t1 => Indep (fst (ttl_decr t0)) (fst (ttl_decr t1))
  end.
(** [CALL_SMETHOD(stp_in->ttl, reset)] of relay_packet, src/rtpp_proc_async.c:275 *)
Definition pipe_reset (p : pipe_ttl) (s : side) : pipe_ttl :=
  match p, s with
  | Shared t, _ => Shared (ttl_reset t)
  | Indep t0 t1, SideO => Indep (ttl_reset t0) t1
  | Indep t0 t1, SideA => Indep t0 (ttl_reset t1)
  end.
(** SET_PRM_TTL, src/commands/rpcpv1_ul_subc_set.c:100-105 *)
Definition pipe_reset_with (p : pipe_ttl) (s : side) (m : Z) : pipe_ttl :=
  match p, s with
  | Shared t, _ => Shared (ttl_reset_with t m)
  | Indep t0 t1, SideO => Indep (ttl_reset_with t0 m) t1
  | Indep t0 t1, SideA => Indep t0 (ttl_reset_with t1 m)
  end.

(** The part of struct rtpp_session the sweep looks at. *)
Record sess := mkSess { se_id : Z; se_ttl : pipe_ttl; se_notify : bool (* timeout_data != NULL *) }.

(** Server state: session table (iteration order), number of timeouts counted
    (nsess_timeout) and the notifications scheduled so far (session ids). *)
Record srv := mkSrv { sv_tab : list sess; sv_ntimeout : Z; sv_notified : list Z }.

(** Result of the callback: keep or RTPP_HT_MATCH_DEL. *)
Definition foreach_cb (s : sess) (v : srv) : option sess * Z * list Z :=
  if pipe_get_ttl (se_ttl s) =? 0 then
    (None, sv_ntimeout v + 1, if se_notify s then sv_notified v ++ [se_id s] else sv_notified v)
  else (Some (mkSess (se_id s) (pipe_decr_ttl (se_ttl s)) (se_notify s)), sv_ntimeout v, sv_notified v).

(** rtpp_proc_ttl_foreach, src/rtpp_proc_ttl.c:82-109, applied to the session [i] if it is
    in the table: one step of the sweep. Simplification: the reads and decrements of one
    callback are one atomic step; packets interleave between callbacks. *)
Fixpoint visit (tab : list sess) (i : Z) (v : srv) : list sess * Z * list Z :=
  match tab with
  | [] => ([], sv_ntimeout v, sv_notified v)
  | s :: t =>
      if se_id s =? i then
        let '(o, n, ns) := foreach_cb s v in
        (match o with Some s' => s' :: t | None => t end, n, ns)
      else let '(t', n, ns) := visit t i v in (s :: t', n, ns)
  end.

Definition on_sess (tab : list sess) (i : Z) (f : sess -> sess) : list sess :=
  map (fun s => if se_id s =? i then f s else s) tab.

Inductive event :=
| ECreate (i : Z) (shared : bool) (n0 n1 : Z) (notify : bool) (* a session appears, TTLs n0/n1 (n0 when shared) *)
| EPacket (i : Z) (s : side)                                   (* a packet received on a stream was relayed or dropped by relay_packet *)
| ESetTtl (i : Z) (s : side) (m : Z)                           (* S ttl=m sub-command *)
| EVisit (i : Z)                                               (* the sweep looks at session i *)
| EDelete (i : Z).                                             (* D command removes the session *)

Definition srv_init : srv := mkSrv [] 0 [].

Definition srv_step (v : srv) (e : event) : srv :=
  match e with
  | ECreate i sh n0 n1 nt =>
      mkSrv (sv_tab v ++ [mkSess i (if sh then Shared (ttl_ctor n0) else Indep (ttl_ctor n0) (ttl_ctor n1)) nt])
            (sv_ntimeout v) (sv_notified v)
  | EPacket i s =>
      mkSrv (on_sess (sv_tab v) i (fun x => mkSess (se_id x) (pipe_reset (se_ttl x) s) (se_notify x)))
            (sv_ntimeout v) (sv_notified v)
  | ESetTtl i s m =>
      mkSrv (on_sess (sv_tab v) i (fun x => mkSess (se_id x) (pipe_reset_with (se_ttl x) s m) (se_notify x)))
            (sv_ntimeout v) (sv_notified v)
  | EVisit i => let '(t, n, ns) := visit (sv_tab v) i v in mkSrv t n ns
  | EDelete i => mkSrv (filter (fun s => negb (se_id s =? i)) (sv_tab v)) (sv_ntimeout v) (sv_notified v)
  end.

Definition srv_run (es : list event) : srv := fold_left srv_step es srv_init.

(** One complete pass of the foreach over the table, src/rtpp_proc_ttl.c:111-116:
    the callback is applied to each session of the snapshot order. *)
Definition sweep (v : srv) : srv :=
  fold_left (fun w i => srv_step w (EVisit i)) (map se_id (sv_tab v)) v.
