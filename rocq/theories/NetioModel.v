(** Model of the sender thread: src/rtpp_netio_async.c:86-181, 202-284, 379-393 and the work items it is given,
    src/rtpp_wi_pkt.c:70-169. The queue between the threads is a list: that it is one is theorem queue_is_fifo
    (QueueThm.v). Debugging output and load statistics are left out. *)
From Verif Require Import Base.

(** What sendto is called with, and how often: struct rtpp_wi_sendargs, src/rtpp_wi_private.h. The message is the contents
    of the buffer at the time of sending; nobody else has a reference to it (rtp_packet ownership passes to the item). *)
Record item := mkItem { i_nsend : Z; i_sock : Z; i_msg : list Z; i_to : Z }.
(** RTPP_WI_TYPE_OPKT and RTPP_WI_TYPE_SGNL *)
Inductive wi := Pkt (i : item) | Sgnl.

(** What sendto reports: a length, EPERM, ENOBUFS or another error *)
Inductive outcome := Ok (n : Z) | Eperm | Enobufs | Efail.

(** Where the thread is: asking for items; at work item [w] of a batch with [nc] copies to go after [nr] retries, the
    others of the batch to follow; before the first of a batch; returned *)
Inductive pc := Asking | Batch (l : list wi) | Sending (i : item) (nc nr : Z) (l : list wi) | Gone.
Record st := mkSt { q : list wi; at_ : pc }.

(** RTPP_ANETIO_BATCH_LEN, src/rtpp_netio_async.c:87 with RTPQ_LARGE_CB_LEN, src/rtpp_queue.h:76 *)
Definition BATCH : nat := 1024 / 8.
(** RTPP_ANETIO_MAX_RETRY, line 86 *)
Definition MAX_RETRY : Z := 3.
(** LBR_THRS, src/rtpp_defines.h:43 *)
Definition LBR_THRS : Z := 128.

(** What happens: a producer calls rtpp_anetio_sendto (or _na) or rtpp_anetio_send_pkt_na with a sender in mode [dmode];
    the allocation of a work item succeeds or not; the shut-down puts the signal; the thread proceeds, with the number
    of items the queue hands out and the outcome of sendto if it calls it *)
Inductive op :=
| SendTo (sock : Z) (msg : list Z) (to : Z) (mem : bool)
| SendPkt (dmode : bool) (sock : Z) (msg : list Z) (to : Z) (mem : bool)
| Shutdown
| Thread (n : nat) (r : outcome).
(** What can be observed: a request accepted or not, the calls of sendto, work items freed *)
Inductive event :=
| EAccept (i : item)
| EReject
| EStop
| ECall (sock : Z) (msg : list Z) (to : Z) (r : outcome)
| EFree (i : item)
| EExit.

(** rtpp_anetio_sendto, rtpp_anetio_sendto_na, lines 202-231, with nsend = 1, src/rtpp_wi_pkt.c:76, 103 *)
Definition sendto (s : st) (sock : Z) (msg : list Z) (to : Z) (mem : bool) : st * list event :=
  if mem then let i := mkItem 1 sock msg to in (mkSt (q s ++ [Pkt i]) (at_ s), [EAccept i]) else (s, [EReject]).
(** rtpp_anetio_send_pkt_na, lines 247-284 *)
Definition send_pkt (s : st) (dmode : bool) (sock : Z) (msg : list Z) (to : Z) (mem : bool) : st * list event :=
  let nsend := if dmode && (Z.of_nat (length msg) <? LBR_THRS) then 2 else 1 in
  if mem then let i := mkItem nsend sock msg to in (mkSt (q s ++ [Pkt i]) (at_ s), [EAccept i]) else (s, [EReject]).

(** rtpp_anetio_sthread, lines 104-178. rtpp_queue_get_items blocks while there is nothing, and hands out at least
    one item and at most as many as asked for, from the front, line 105; [n]: how many *)
Definition thread (s : st) (n : nat) (r : outcome) : st * list event :=
  match at_ s with
  | Asking =>
      let k := Nat.min n (Nat.min BATCH (length (q s))) in
      if (0 <? k)%nat then (mkSt (skipn k (q s)) (Batch (firstn k (q s))), []) else (s, [])
  | Batch [] => (mkSt (q s) Asking, [])
  | Batch (Sgnl :: _) => (mkSt (q s) Gone, [EExit])
  | Batch (Pkt i :: l) => (mkSt (q s) (Sending i (i_nsend i) 0 l), [])
  | Sending i nc nr l =>
      let call := ECall (i_sock i) (i_msg i) (i_to i) r in
      let more nc nr := if 0 <? nc then (mkSt (q s) (Sending i nc nr l), [call]) else (mkSt (q s) (Batch l), [call; EFree i]) in
      match r with
      | Ok _ => more (nc - 1) nr
      | Eperm | Enobufs => if nr <? MAX_RETRY then more nc (nr + 1) else (mkSt (q s) (Batch l), [call; EFree i])
      | Efail => (mkSt (q s) (Batch l), [call; EFree i])
      end
  | Gone => (s, [])
  end.

Definition step (s : st) (o : op) : st * list event :=
  match o with
  | SendTo sock msg to mem => sendto s sock msg to mem
  | SendPkt dmode sock msg to mem => send_pkt s dmode sock msg to mem
  | Shutdown => (mkSt (q s ++ [Sgnl]) (at_ s), [EStop])
  | Thread n r => thread s n r
  end.
Fixpoint run (s : st) (os : list op) : st * list event :=
  match os with
  | [] => (s, [])
  | o :: t => let '(s1, e) := step s o in let '(s2, tr) := run s1 t in (s2, e ++ tr)
  end.
Definition start : st := mkSt [] Asking.
