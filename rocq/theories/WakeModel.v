(** Model of the wake-up thread: src/rtpp_proc_wakeup.c:52-132, 179-207. Everything between a lock and an unlock of the
    mutex is one step; pthread_cond_wait sleeps until it is signalled, or for no reason, and
    pthread_cond_timedwait also until its deadline has passed. Times are whole numbers of some small unit (doubles in the code). There are
    two clocks: getdtime reads RTPP_CLOCK_MONO (CLOCK_BOOTTIME where there is one), src/rtpp_time.h:34-46, and
    the waits are timed by CLOCK_MONOTONIC, line 148. Whether a write of the wake-up number succeeds is left out: the pipe
    being full wakes the reader as well. *)
From Verif Require Import Base.

(** Where the thread is: before the lock, asleep, asleep with a deadline, before either of the writes, before line 129, ended;
    or going round the loop of lines 95-107 with the mutex held *)
Inductive pc := Top | Sleep | SleepT | Write1 | Write2 | Stamp | Ended | Spin.
(** The fields shared under the mutex, whether the condition was signalled while the thread slept, the state flag (true: TSTATE_RUN), and
    the local variables of the thread *)
Record st := mkSt { requested : Z; delivered : Z; woken : bool; running : bool; at_ : pc; l_req : Z; last : Z; wake_at : Z }.
(** After the constructor, lines 134-166, has seen the thread run *)
Definition start : st := mkSt 0 0 false true Top 0 0 0.

Inductive event := ENudge | ECease | ERtp (t v : Z) | ERtcp (t v : Z) | EEnd.
(** The environment: [ival] is 1 / MAX_WAKEUPS_PS; [bad t]: dtime2mtimespec turns [t] into an invalid timespec, for which
    pthread_cond_timedwait fails at once with EINVAL and keeps the mutex (see TimeThm.v for such times) *)
Record env := mkEnv { ival : Z; bad : Z -> bool }.

(** lines 119-121 *)
Definition deliver (s : st) (v : Z) : st := mkSt (requested s) v false (running s) Write1 v (last s) (wake_at s).
(** lines 95-118, mutex held, at time [now] *)
Definition check (e : env) (s : st) (now : Z) : st * list event :=
  if running s && (l_req s =? requested s) then
    (mkSt (requested s) (delivered s) false (running s) (if wake_at s =? 0 then Sleep else if bad e (wake_at s) then Spin else SleepT)
       (l_req s) (last s) (wake_at s), [])
  else if negb (running s) then (mkSt (requested s) (delivered s) false (running s) Ended (l_req s) (last s) (wake_at s), [EEnd])
  else if (0 <? last s) && (now - last s <? ival e) then
    (mkSt (requested s) (delivered s) false (running s) Top (requested s) (last s) (last s + ival e), [])
  else (deliver s (requested s), []).

(** One step of rtpp_proc_wakeup_run, lines 91-131, at times [now] and [mono]; [sp]: a wait ends for no reason. Lines 101-105 *)
Definition work (e : env) (s : st) (now mono : Z) (sp : bool) : st * list event :=
  match at_ s with
  | Top => check e s now
  | Sleep => if woken s || sp then check e s now else (s, [])
  | SleepT => if wake_at s <=? mono then (deliver s (requested s), [])
              else if woken s || sp then check e s now else (s, [])
  | Write1 => (mkSt (requested s) (delivered s) (woken s) (running s) Write2 (l_req s) (last s) (wake_at s), [ERtp now (l_req s)])
  | Write2 => (mkSt (requested s) (delivered s) (woken s) (running s) Stamp (l_req s) (last s) (wake_at s), [ERtcp now (l_req s)])
  | Stamp => (mkSt (requested s) (delivered s) (woken s) (running s) Top (l_req s) now 0, [])
  | Ended => (s, [])
  | Spin => if running s then (s, []) else check e s now
  end.

(** rtpp_proc_wakeup_nudge, lines 192-207; blocks while the mutex is held; [None]: signed overflow *)
Definition nudge (s : st) : option (st * list event) :=
  match at_ s with
  | Spin => Some (s, [])
  | _ => if requested s =? 2147483647 then None
         else Some (mkSt (requested s + 1) (delivered s) true (running s) (at_ s) (l_req s) (last s) (wake_at s), [ENudge])
  end.

(** Any thread nudges; the destructor, lines 183-187, sets the flag and then nudges; the thread goes on *)
Inductive op := Nudge | Cease | Work (now mono : Z) (sp : bool).
Definition step (e : env) (s : st) (o : op) : option (st * list event) :=
  match o with
  | Nudge => nudge s
  | Cease => Some (mkSt (requested s) (delivered s) (woken s) false (at_ s) (l_req s) (last s) (wake_at s), [ECease])
  | Work now mono sp => Some (work e s now mono sp)
  end.
Fixpoint run (e : env) (s : st) (os : list op) : option (st * list event) :=
  match os with
  | [] => Some (s, [])
  | o :: t => match step e s o with
              | None => None
              | Some (s1, ev) => match run e s1 t with Some (s2, tr) => Some (s2, ev ++ tr) | None => None end
              end
  end.
