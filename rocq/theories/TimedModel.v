(** Model of timed tasks: src/rtpp_timed.c:102-390. The request queue is a list of tasks (justified by
    queue_is_fifo, QueueThm.v); its operations are atomic, every other step of the timer thread and of
    the threads that schedule and cancel can interleave. A cancel is one step: once the task is out of
    the queue no other thread touches it. Times are integers (in the code: doubles, in seconds).
    The result of a callback is an oracle. Not modelled: lack of memory. *)
From Verif Require Import Base.

(** struct rtpp_timed_wi, src/rtpp_timed.c:76-84 *)
Record task := mkTask { k_id : Z; k_when : Z; k_off : Z }.
(** Where the timer thread is: at the top of its loop (line 112), in rtpp_timed_process before it takes a task
    (line 323), in a callback (line 329), in an endless loop (line 331); draining the queue: before the
    length is checked (line 126), before an item is taken (line 127), asleep on an empty queue (no signal is sent, as
    the queue has qlen 0, line 153); gone. *)
Inductive tstate := TIdle | TProc (ct : Z) | TRun (ct : Z) (k : task) | THang | TDrain | TDrainGet | TStuck | TGone.
Record timed := mkT { t_q : list task; t_next : Z; t_st : tstate; t_term : bool }.
Definition timed0 : timed := mkT [] 0 TIdle false.

Fixpoint first_matching (l : list task) (p : task -> bool) : option (task * list task) :=
  match l with
  | [] => None
  | x :: t => if p x then Some (x, t)
              else match first_matching t p with Some (y, r) => Some (y, x :: r) | None => None end
  end.

(** lines 331-334; [None]: the loop does not end *)
Fixpoint advance (fuel : nat) (when off ct : Z) : option Z :=
  match fuel with
  | O => None
  | S fuel => if when <=? ct then advance fuel (when + off) off ct else Some when
  end.

Inductive op :=
| Sched (off now : Z)       (* rtpp_timed_schedule, rtpp_timed_schedule_rc *)
| Cancel (id : Z)           (* rtpp_timed_cancel *)
| Shutdown                  (* rtpp_timed_shutdown puts SIGTERM into the command queue *)
| Begin (ct : Z)            (* top of the loop: command queue and clock are read *)
| Fetch                     (* the thread looks for a task that is due *)
| Return (more : bool)      (* the callback returns CB_MORE, or not *)
| Drain.                    (* one step of the drain loop *)
Inductive obs :=
| OSched (id off now : Z)
| OFire (id t : Z)          (* the callback is called with time t *)
| ORound (t : Z)            (* the round of time t is over *)
| OMore (id : Z) | OEnd (id : Z)
| OCancel (id : Z) (ok : bool)
| ODrain (id : Z)           (* cancelled because of the shutdown *)
| ONone.

Definition step (s : timed) (o : op) : timed * obs :=
  match o with
  | Sched off now => (* lines 220-260 *)
      (mkT (t_q s ++ [mkTask (t_next s) (now + off) off]) (t_next s + 1) (t_st s) (t_term s), OSched (t_next s) off now)
  | Cancel id => (* lines 364-390 *)
      match first_matching (t_q s) (fun k => k_id k =? id) with
      | Some (_, r) => (mkT r (t_next s) (t_st s) (t_term s), OCancel id true)
      | None => (s, OCancel id false)
      end
  | Shutdown => (mkT (t_q s) (t_next s) (t_st s) true, ONone)
  | Begin ct => (* lines 112-122 *)
      match t_st s with
      | TIdle => (mkT (t_q s) (t_next s) (if t_term s then TDrain else TProc ct) (t_term s), ONone)
      | _ => (s, ONone)
      end
  | Fetch => (* lines 322-329 *)
      match t_st s with
      | TProc ct =>
          match first_matching (t_q s) (fun k => k_when k <=? ct) with
          | None => (mkT (t_q s) (t_next s) TIdle (t_term s), ORound ct)
          | Some (k, r) => (mkT r (t_next s) (TRun ct k) (t_term s), OFire (k_id k) ct)
          end
      | _ => (s, ONone)
      end
  | Return more => (* lines 330-341 *)
      match t_st s with
      | TRun ct k =>
          if more then
            match advance (S (S (Z.to_nat (ct - k_when k)))) (k_when k) (k_off k) ct with
            | None => (mkT (t_q s) (t_next s) THang (t_term s), OMore (k_id k))
            | Some w => (mkT (t_q s ++ [mkTask (k_id k) w (k_off k)]) (t_next s) (TProc ct) (t_term s), OMore (k_id k))
            end
          else (mkT (t_q s) (t_next s) (TProc ct) (t_term s), OEnd (k_id k))
      | _ => (s, ONone)
      end
  | Drain => (* lines 126-136 *)
      match t_st s with
      | TDrain => (mkT (t_q s) (t_next s) (match t_q s with [] => TGone | _ => TDrainGet end) (t_term s), ONone)
      | TDrainGet => match t_q s with
                     | [] => (mkT [] (t_next s) TStuck (t_term s), ONone)
                     | k :: r => (mkT r (t_next s) TDrain (t_term s), ODrain (k_id k))
                     end
      | _ => (s, ONone)
      end
  end.

Fixpoint run (s : timed) (os : list op) : timed * list obs :=
  match os with
  | [] => (s, [])
  | o :: t => let (s1, b) := step s o in let (s2, tr) := run s1 t in (s2, b :: tr)
  end.
