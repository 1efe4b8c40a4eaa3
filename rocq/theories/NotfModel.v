(** Model of src/rtpp_notify.c: notifications are queued by any thread and delivered by one thread of their own, over stream
    sockets that are connected when needed. Time is a list of operations: calls of other threads and steps of the delivering
    thread; a step is one system call (or one local action) and is given what the system answers. The queue is the FIFO of
    QueueModel; the log is left out. *)
From Verif Require Import Base.

(** struct rtpp_tnotify_target, src/rtpp_tnotify_tgt.h:46-54: whether it is of type RTPP_TNS_FD, whether it has a local address,
    [connected], and the descriptor ([None]: -1). *)
Record target := mkT { is_fd : bool; has_local : bool; connected : bool; fd : option nat }.

(** What is queued: a notification (its number in the order of scheduling, its target, its bytes), or SIGTERM. *)
Inductive item := Note (n : nat) (t : nat) (buf : list Z) | Term.

(** Where the delivering thread is: at the queue; about to look at [connected] (line 243), to call socket() (213), bind() (219),
    connect() (224), look at [connected] again (247), to call send() (255), with [retries] left; ended; aborted by an assertion. *)
Inductive pc := Idle | Check (retries : nat) | Socket (retries : nat) | Bind (retries : nat) | Connect (retries : nat) |
  Recheck (retries : nat) | Send (retries : nat) | Ended | Aborted.

(** The notification in hand: number, target, bytes. *)
Record st := mkSt { queue : list item; cur : nat * nat * list Z; at_ : pc; tg : nat -> target; nsched : nat; dead : bool }.

(** What is observed: a notification accepted; system calls on descriptors; the fate of a notification. *)
Inductive event :=
| EAccept (n t : nat) (tag : list Z)        (** schedule() returned 0 *)
| ERefuse                                   (** schedule() returned -1 *)
| ESocket (f : option nat) | EBind (f : nat) (ok : bool) | EConnect (f t : nat) (ok : bool) | EClose (f : nat)
| EIntr (f t : nat)                         (** send() called but interrupted *)
| ESend (f t : nat) (took : option (list Z))  (** send() failed, or took these bytes *)
| EDone (n t : nat)                         (** delivered: send() did not fail *)
| EGiveUp (n t : nat)
| EEnd | EAbort.

(** Answers of the system. *)
Inductive sres := Intr | Fail | Took (k : nat).
Inductive answer := ASocket (f : option nat) | ABind (ok : bool) | AConnect (ok : bool) | ASend (r : sres) | ANone.

(** Operations: schedule() of a tag for a target, with or without memory; the destructor, lines 155-160; a step. *)
Inductive op := Sched (t : nat) (tag : list Z) (mem : bool) | Destroy | Step (a : answer).

Definition set_tg (s : st) (t : nat) (x : target) : st :=
  mkSt (queue s) (cur s) (at_ s) (fun i => if (i =? t)%nat then x else tg s i) (nsched s) (dead s).
Definition goto (s : st) (p : pc) : st := mkSt (queue s) (cur s) p (tg s) (nsched s) (dead s).
Definition with_fd (x : target) (f : option nat) : target := mkT (is_fd x) (has_local x) (connected x) f.
Definition with_conn (x : target) (c : bool) : target := mkT (is_fd x) (has_local x) c (fd x).

(** rtpp_notify_schedule, lines 165-198: the buffer has room for [len] = tag and 2 more bytes; the tag and a newline are stored
    in it, [len - 1] bytes of it are sent. *)
Definition sched (s : st) (t : nat) (tag : list Z) (mem : bool) : st * list event :=
  if negb mem then (s, [ERefuse])
  else (mkSt (queue s ++ [Note (nsched s) t (tag ++ [10])]) (cur s) (at_ s) (tg s) (S (nsched s)) (dead s), [EAccept (nsched s) t tag]).

(** After send(): lines 258-264. *)
Definition sent (s : st) (retries : nat) (r : sres) : st * list event :=
  let '(n, t, buf) := cur s in
  let x := tg s t in
  match fd x with
  | None => (goto s Aborted, [EAbort])       (* send() on -1: not reachable, see the proofs *)
  | Some f =>
      match r with
      | Intr => (s, [EIntr f t])
      | Took k => (goto s Idle, [ESend f t (Some (firstn k buf)); EDone n t])
      | Fail =>
          let s := set_tg s t (with_conn x false) in
          match retries with
          | O => (goto s Idle, [ESend f t None; EGiveUp n t])
          | S r => (goto s (Check r), [ESend f t None])
          end
      end
  end.

(** A step of the delivering thread. An answer that does not fit the call is ignored. *)
Definition step (s : st) (a : answer) : st * list event :=
  let '(n, t, buf) := cur s in
  let x := tg s t in
  match at_ s, a with
  (* rtpp_notify_queue_run, lines 93-107 *)
  | Idle, ANone =>
      match queue s with
      | [] => (s, [])
      | Term :: q => (mkSt q (cur s) Ended (tg s) (nsched s) (dead s), [EEnd])
      | Note n t buf :: q => (mkSt q (n, t, buf) (Check 3) (tg s) (nsched s) (dead s), [])
      end
  (* do_notification, line 243, and reconnect_handler, lines 204-212 *)
  | Check r, ANone =>
      if connected x then (goto s (Send r), [])
      else if is_fd x then (goto s Aborted, [EAbort])
      else match fd x with
           | None => (goto s (Socket r), [])
           | Some f => (goto (set_tg s t (with_fd x None)) (Socket r), [EClose f])
             (* [fd] keeps the closed number until socket() returns; nobody looks at it in between *)
           end
  (* lines 213-217 *)
  | Socket r, ASocket None => (goto (set_tg s t (with_fd x None)) (Recheck r), [ESocket None])
  | Socket r, ASocket (Some f) =>
      (goto (set_tg s t (with_fd x (Some f))) (if has_local x then Bind r else Connect r), [ESocket (Some f)])
  (* lines 218-223, 232-235 *)
  | Bind r, ABind ok =>
      match fd x with
      | None => (goto s Aborted, [EAbort])
      | Some f => if ok then (goto s (Connect r), [EBind f true])
                  else (goto (set_tg s t (with_fd x None)) (Recheck r), [EBind f false; EClose f])
      end
  (* lines 224-235 *)
  | Connect r, AConnect ok =>
      match fd x with
      | None => (goto s Aborted, [EAbort])
      | Some f => if ok then (goto (set_tg s t (with_conn x true)) (Recheck r), [EConnect f t true])
                  else (goto (set_tg s t (with_fd x None)) (Recheck r), [EConnect f t false; EClose f])
      end
  (* lines 247-251 *)
  | Recheck r, ANone => if connected x then (goto s (Send r), []) else (goto s Idle, [EGiveUp n t])
  (* lines 254-264 *)
  | Send r, ASend res => sent s r res
  | _, _ => (s, [])
  end.

(** An operation. After the destructor was called the notifier is not used any more; a second call does nothing. *)
Definition exec (s : st) (o : op) : st * list event :=
  match o with
  | Sched t tag mem => if dead s then (s, []) else sched s t tag mem
  | Destroy => if dead s then (s, []) else (mkSt (queue s ++ [Term]) (cur s) (at_ s) (tg s) (nsched s) true, [])
  | Step a => step s a
  end.

Fixpoint run (s : st) (os : list op) : st * list event :=
  match os with
  | [] => (s, [])
  | o :: os => let (s1, e1) := exec s o in let (s2, e2) := run s1 os in (s2, e1 ++ e2)
  end.

(** The beginning: targets as rtpp_tnotify_set_append (rtpp_tnotify_set.c:282-287) and get_tp4wp (lines 368-369) make them. A
    target made later is one nobody has used before. *)
Definition init (kinds : nat -> bool * bool * nat) : st :=
  mkSt [] (O, O, []) Idle
    (fun t => let '(isfd, local, f) := kinds t in mkT isfd local isfd (if isfd then Some f else None)) O false.
