(** Model of the packet port of the library (src/rtpp_packetport.c): the thread of the application that pushes, flushes and destroys, any thread
    that pops, the threads of the engine that send packets and register streams, and the worker of the port. One step is one access to a shared
    queue (atomic: C57 for the lock-free ones, a mutex for the queue of work items), to the counter of runs or to the table of streams. Packets are numbers with
    a port. Counters of runs are unbounded (uint64_t). *)
From Verif Require Import Base.

Record pkt := mkPkt { pid : Z; pport : Z }.
(** Work items: RTPP_PPSIG_TERM, RTPP_PPSIG_NUDGE, RTPP_PPSIG_FLUSH with its run, data (lines 83-85, 712-732) *)
Inductive pwi := WTerm | WNudge | WFlush (run : Z) | WData (p : pkt).

(** The thread of the application: idle; in the loop of lines 703-708 before try_push and before try_pop; in rtpp_packetport_flush before the signal is queued;
    in pthread_join; after the end *)
Inductive apc := AIdle | APush (p : pkt) | ADrop (p : pkt) | AFlush (seen : Z) | AJoin | AGone.
(** struct rtpp_packetport_wi2pktxp_ctx, lines 127-132 *)
Record ctx := mkCtx { c_lc : Z; c_flush : bool; c_term : bool }.
(** The worker: waiting for work items; in the loop of lines 754-762 before it looks for room, before the packets are put there, before packets are dropped (items that
    remain, number of packets dropped); in drain_out before the run is counted, before try_pop_many, with packets to handle; after the end *)
Inductive wpc :=
| KWait | KSee (rest : list pwi) (nd : Z) (c : ctx) | KPut (rest : list pwi) (room : Z) (nd : Z) (c : ctx) | KMake (rest : list pwi) (nd : Z) (c : ctx)
| KIncr | KPop | KHandle (ps : list pkt) | KDead.

(** What happens: a packet was accepted from the application, returned to it, dropped instead of being queued, dropped to make room, taken by the
    worker, handled by a stream, without a stream; a flush succeeded or failed; a packet was accepted from the engine or not, entered the queue to the application, could not for
    lack of memory, was dropped to make room, was popped by the application; streams; the end, with the packets released by it *)
Inductive event :=
| Accepted (p : pkt) | Refused (p : pkt) | Lost (p : pkt) | DropOut (p : pkt) | Took (p : pkt) | Handled (p : pkt) (st : Z) | NoStream (p : pkt)
| FlushOk | FlushFailed | Sent (p : pkt) | NotSent (p : pkt) | Entered (p : pkt) | Undelivered (p : pkt) | DropIn (p : pkt) | Got (p : pkt)
| Registered (port st : Z) | Unregistered (port : Z) | FreeOut (p : pkt) | FreeIn (p : pkt) | FreeSent (p : pkt) | Ended.

(** struct rtpp_packetport_int_priv, lines 87-109. [sb]: pushes whose index is not visible yet to the worker; [overrun]: out_batch was overrun *)
Record st := mkSt { out : list pkt; sb : list (list pkt); inq : list pkt; pq : list pwi; out_run : Z; lc : Z; lastf : option Z;
  streams : Z -> option Z; app : apc; wrk : wpc; overrun : bool }.
(** Lines 406-410 *)
Definition init : st := mkSt [] [] [] [] 0 0 None (fun _ => None) AIdle KWait false.

Definition zlen {A} (l : list A) : Z := Z.of_nat (length l).
Definition fset {A} (f : Z -> A) (i : Z) (x : A) : Z -> A := fun j => if j =? i then x else f j.

Definition with_out (s : st) (o : list pkt) (b : list (list pkt)) : st := mkSt o b (inq s) (pq s) (out_run s) (lc s) (lastf s) (streams s) (app s) (wrk s) (overrun s).
Definition with_inq (s : st) (q : list pkt) : st := mkSt (out s) (sb s) q (pq s) (out_run s) (lc s) (lastf s) (streams s) (app s) (wrk s) (overrun s).
Definition with_pq (s : st) (q : list pwi) : st := mkSt (out s) (sb s) (inq s) q (out_run s) (lc s) (lastf s) (streams s) (app s) (wrk s) (overrun s).
Definition with_app (s : st) (a : apc) : st := mkSt (out s) (sb s) (inq s) (pq s) (out_run s) (lc s) (lastf s) (streams s) a (wrk s) (overrun s).
Definition with_wrk (s : st) (k : wpc) : st := mkSt (out s) (sb s) (inq s) (pq s) (out_run s) (lc s) (lastf s) (streams s) (app s) k (overrun s).
Definition with_last (s : st) (l : option Z) : st := mkSt (out s) (sb s) (inq s) (pq s) (out_run s) (lc s) l (streams s) (app s) (wrk s) (overrun s).
Definition with_streams (s : st) (t : Z -> option Z) : st := mkSt (out s) (sb s) (inq s) (pq s) (out_run s) (lc s) (lastf s) t (app s) (wrk s) (overrun s).
Definition with_run (s : st) (r l : Z) : st := mkSt (out s) (sb s) (inq s) (pq s) r l (lastf s) (streams s) (app s) (wrk s) (overrun s).
Definition with_overrun (s : st) (o : bool) : st := mkSt (out s) (sb s) (inq s) (pq s) (out_run s) (lc s) (lastf s) (streams s) (app s) (wrk s) o.

Section port.
  (** The capacity; whether the machine delays stores behind later loads of the same thread (x86-TSO) or not (sequential consistency) *)
  Context (cap : Z) (tso : bool).

  (** Room in the queue to the worker, as the producer sees it *)
  Definition room (s : st) : Z := cap - (zlen (out s) + zlen (concat (sb s))).
  Definition accept (s : st) (ps : list pkt) : st :=
    if tso then with_out s (out s) (sb s ++ [ps]) else with_out s (out s ++ ps) (sb s).
  (** rtpp_queue_put_item with a limit of capacity+1 items, line 378 *)
  Definition pq_full (s : st) : bool := zlen (pq s) >=? cap + 1.

  (** rtpp_packetport_push, lines 421-433, up to the loop *)
  Definition u_push (s : st) (p : pkt) : st * list event := match app s with AIdle => (with_app s (APush p), []) | _ => (s, []) end.
  (** rtpp_packetport_try_push, lines 435-449 *)
  Definition u_try_push (s : st) (p : pkt) : st * list event :=
    match app s with
    | AIdle => if 1 <=? room s then (accept s [p], [Accepted p]) else (s, [Refused p])
    | _ => (s, [])
    end.
  (** rtpp_packetport_try_push_many, lines 451-460. Simplification: the room is seen and the packets are put there in one step. *)
  Definition u_try_push_many (s : st) (ps : list pkt) : st * list event :=
    match app s with
    | AIdle => let n := Z.to_nat (room s) in
        (match firstn n ps with [] => s | now => accept s now end, map Accepted (firstn n ps) ++ map Refused (skipn n ps))
    | _ => (s, [])
    end.
  (** rtpp_packetport_flush, lines 462-480, up to the signal *)
  Definition u_flush (s : st) : st * list event :=
    match app s with
    | AIdle => match lastf s with
               | Some l => if out_run s =? l then (s, [FlushOk]) else (with_app s (AFlush (out_run s)), [])
               | None => (with_app s (AFlush (out_run s)), [])
               end
    | _ => (s, [])
    end.
  (** rtpp_packetport_dtor_obj, lines 535-540, when the last reference is gone *)
  Definition u_dtor (s : st) : st * list event :=
    match app s with
    | AIdle => (with_app (if pq_full s then s else with_pq s (pq s ++ [WTerm])) AJoin, [])
    | _ => (s, [])
    end.
  Definition datas (q : list pwi) : list pkt := flat_map (fun w => match w with WData p => [p] | _ => [] end) q.
  (** The next step of the thread of the application: lines 698-710, 474-479, 541-543. A locked instruction (compare-and-exchange, mutex)
      waits for the stores of its thread. [ok]: memory for the signal *)
  Definition u_step (s : st) (ok : bool) : st * list event :=
    match app s with
    | APush p => if 1 <=? room s then (with_app (accept s [p]) AIdle, [Accepted p]) else (with_app s (ADrop p), [])
    | ADrop p =>
        match sb s with
        | [] => match out s with [] => (with_app s AIdle, [Lost p]) | q :: o => (with_app (with_out s o []) (APush p), [DropOut q]) end
        | _ => (s, [])
        end
    | AFlush seen =>
        match sb s with
        | [] => if ok && negb (pq_full s) then (with_app (with_last (with_pq s (pq s ++ [WFlush seen])) (Some seen)) AIdle, [FlushOk])
                else (with_app s AIdle, [FlushFailed])
        | _ => (s, [])
        end
    | AJoin =>
        match wrk s, sb s with
        | KDead, [] => (with_app (with_pq (with_inq (with_out s [] []) []) []) AGone,
                        map FreeOut (out s) ++ map FreeIn (inq s) ++ map FreeSent (datas (pq s)) ++ [Ended])
        | _, _ => (s, [])
        end
    | _ => (s, [])
    end.
  (** A store of the application becomes visible *)
  Definition u_commit (s : st) : st * list event := match sb s with [] => (s, []) | ps :: b => (with_out s (out s ++ ps) b, []) end.
  Definition alive (s : st) : bool := match app s with AJoin | AGone => false | _ => true end.
  (** rtpp_packetport_try_pop, rtpp_packetport_try_pop_many, lines 498-515 *)
  Definition u_pop (s : st) (n : nat) : st * list event :=
    if alive s then (with_inq s (skipn n (inq s)), map Got (firstn n (inq s))) else (s, []).

  (** rtpp_packetport_send_pkt_na, lines 598-615. [ok]: memory *)
  Definition e_send (s : st) (p : pkt) (ok : bool) : st * list event :=
    if alive s then if ok && negb (pq_full s) then (with_pq s (pq s ++ [WData p]), [Sent p]) else (s, [NotSent p]) else (s, []).
  (** rtpp_packetport_reg_stream, lines 635-654. Simplification: one step *)
  Definition e_reg (s : st) (port strm : Z) (ok : bool) : st * list event :=
    if alive s then
      match streams s port with
      | Some _ => (s, [])
      | None => if ok && negb (pq_full s) then (with_streams (with_pq s (pq s ++ [WNudge])) (fset (streams s) port (Some strm)), [Registered port strm]) else (s, [])
      end
    else (s, []).
  (** rtpp_packetport_unreg_stream, lines 672-679 *)
  Definition e_unreg (s : st) (port : Z) : st * list event :=
    if alive s then (with_streams s (fset (streams s) port None), [Unregistered port]) else (s, []).

  (** try_push_many_kv (SPMCQueue.c:246-258) with rtpp_packetport_wi2pktxp (lines 180-223): packets, items that remain, context, events. [fails]: no memory *)
  Fixpoint take (fails : pkt -> bool) (n : nat) (rest : list pwi) (c : ctx) : list pkt * list pwi * ctx * list event :=
    match rest with
    | [] => ([], [], c, [])
    | w :: t =>
        match n with
        | O => ([], rest, c, [])
        | S n' =>
            match w with
            | WTerm => take fails n t (mkCtx (c_lc c) (c_flush c) true)
            | WFlush r => take fails n t (if r >=? c_lc c then mkCtx (c_lc c) true (c_term c) else c)
            | WNudge => take fails n t c
            | WData p => if fails p then let '(ps, r, c', e) := take fails n t c in (ps, r, c', Undelivered p :: e)
                         else let '(ps, r, c', e) := take fails n' t c in (p :: ps, r, c', Entered p :: e)
            end
        end
    end.
  (** Lines 766-771 *)
  Definition finish (c : ctx) : wpc := if c_term c then KDead else if c_flush c then KIncr else KWait.
  (** The worker, lines 546-596, 741-772, 774-783, 795-838 *)
  Definition k_step (s : st) (fails : pkt -> bool) : st * list event :=
    match wrk s with
    | KWait => match pq s with
               | [] => (s, [])
               | q => let n := Z.to_nat cap in (with_wrk (with_pq s (skipn n q)) (KSee (firstn n q) 0 (mkCtx (lc s) false false)), [])
               end
    | KSee rest nd c => (with_wrk s (KPut rest (cap - zlen (inq s)) nd c), [])
    | KPut rest r nd c =>
        let '(ps, rest', c', e) := take fails (Z.to_nat r) rest c in
        (with_wrk (with_inq s (inq s ++ ps)) (match rest' with [] => finish c' | _ => KMake rest' nd c' end), e)
    | KMake rest nd c =>
        let k := Nat.min (length rest) (length (inq s)) in
        (with_wrk (with_overrun (with_inq s (skipn k (inq s))) (overrun s || (nd + Z.of_nat k >? cap))) (KSee rest (nd + Z.of_nat k) c),
         map DropIn (firstn k (inq s)))
    | KIncr => (with_wrk (with_run s (out_run s + 1) (out_run s + 1)) KPop, [])
    | KPop => match out s with
              | [] => (with_wrk s KWait, [])
              | o => let n := Z.to_nat cap in (with_wrk (with_out s (skipn n o) (sb s)) (KHandle (firstn n o)), map Took (firstn n o))
              end
    | KHandle [] => (with_wrk s KPop, [])
    | KHandle (p :: ps) => (with_wrk s (KHandle ps), [match streams s (pport p) with Some x => Handled p x | None => NoStream p end])
    | KDead => (s, [])
    end.
  (** The timer mode, lines 575-584: from time to time the worker drains before it waits *)
  Definition k_timer (s : st) : st * list event := match wrk s with KWait => (with_wrk s KIncr, []) | _ => (s, []) end.

  Inductive act :=
  | UPush (p : pkt) | UTryPush (p : pkt) | UTryPushMany (ps : list pkt) | UFlush | UDtor | UStep (ok : bool) | UCommit | UPop (n : nat)
  | ESend (p : pkt) (ok : bool) | EReg (port strm : Z) (ok : bool) | EUnreg (port : Z) | KStep (fails : pkt -> bool) | KTimer.
  Definition step (s : st) (a : act) : st * list event :=
    match a with
    | UPush p => u_push s p | UTryPush p => u_try_push s p | UTryPushMany ps => u_try_push_many s ps | UFlush => u_flush s | UDtor => u_dtor s
    | UStep ok => u_step s ok | UCommit => u_commit s | UPop n => u_pop s n | ESend p ok => e_send s p ok | EReg port x ok => e_reg s port x ok
    | EUnreg port => e_unreg s port | KStep f => k_step s f | KTimer => k_timer s
    end.
  Fixpoint run (s : st) (acts : list act) : st * list event :=
    match acts with
    | [] => (s, [])
    | a :: rest => let '(s1, e1) := step s a in let '(s2, e2) := run s1 rest in (s2, e1 ++ e2)
    end.
End port.

(** rtpp_packetport_nport_alloc, lines 905-915: threads do one fetch-and-add at a time; a thread that got 0 does another one. [waiting]: threads between the two *)
Record ports := mkPorts { counter : Z; waiting : list nat; given : list (nat * Z) }.
Definition ports0 : ports := mkPorts 2 [] [].
Definition alloc_step (s : ports) (t : nat) : ports :=
  let v := counter s in
  let c := (counter s + 2) mod 2 ^ 32 in
  if existsb (Nat.eqb t) (waiting s) then mkPorts c (filter (fun u => negb (Nat.eqb t u)) (waiting s)) (given s ++ [(t, v)])
  else if v =? 0 then mkPorts c (t :: waiting s) (given s)
  else mkPorts c (waiting s) (given s ++ [(t, v)]).
