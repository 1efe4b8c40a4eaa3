(** Model of logging to syslog through a thread.
    Code: src/rtpp_syslog_async.c. *)
From Verif Require Import Base.

(** a line: its priority and its text; None is the item that ends the thread (SYSLOG_ITEM_ASYNC_EXIT) *)
Definition line := option (Z * list Z).

(** struct syslog_wi: items are their index in syslog_wi_pool (rtpp_syslog_async.c:49-81) *)
Inductive worker := WIdle | WHas (i : nat) | WDone (i : nat) | WExit.
Record st := St {
  nxt : nat -> option nat;     (* wi->next *)
  dat : nat -> line;           (* wi->item_type, priority, data *)
  fre : option nat;            (* syslog_wi_free *)
  qh : option nat;             (* syslog_wi_queue *)
  qt : option nat;             (* syslog_wi_queue_tail *)
  drp : Z;                     (* syslog_dropped_items *)
  held : list nat;             (* items that threads have got and not yet put *)
  wrk : worker;                (* what the thread has *)
  out : list (Z * list Z) }.   (* calls of syslog() *)

Definition fupd {A} (f : nat -> A) (i : nat) (v : A) : nat -> A := fun j => if (i =? j)%nat then v else f j.

(** syslog_queue_init (rtpp_syslog_async.c:121-163): a pool of [size] items, SYSLOG_WI_POOL_SIZE is 64 *)
Definition pool_size : nat := 64.
Definition init (size : nat) : st :=
  St (fun i => if (S i <? size)%nat then Some (S i) else None) (fun _ => None)
     (match size with O => None | _ => Some O end) None None 0 [] WIdle [].

(** Steps of the threads; what is done under a mutex is one step *)
Inductive op := OGet (p : Z) (t : list Z) | OGetExit | OPut (n : nat) | OTake | OWrite | OFree.

(** syslog_queue_get_free_item (rtpp_syslog_async.c:165-188) and the filling of the item (258-288, 221); a thread
    that has to wait makes no step *)
Definition get_free (wait : bool) (l : line) (s : st) : st :=
  match fre s with
  | None => if wait then s else St (nxt s) (dat s) None (qh s) (qt s) (drp s + 1) (held s) (wrk s) (out s)
  | Some i => St (nxt s) (fupd (dat s) i l) (nxt s i) (qh s) (qt s) (drp s) (held s ++ [i]) (wrk s) (out s)
  end.

Fixpoint drop_nth {A} (n : nat) (l : list A) : list A :=
  match l, n with [], _ => [] | _ :: l, O => l | x :: l, S n => x :: drop_nth n l end.

(** syslog_queue_put_item (rtpp_syslog_async.c:190-209) by the thread that has the [n]-th item that is held *)
Definition put_item (n : nat) (s : st) : st :=
  match nth_error (held s) n with
  | None => s
  | Some i =>
      let nx := fupd (nxt s) i None in
      let h := drop_nth n (held s) in
      match qh s with
      | None => St nx (dat s) (fre s) (Some i) (Some i) (drp s) h (wrk s) (out s)
      | Some _ =>
          match qt s with
          | None => s (* not reached: the tail is set when the queue is *)
          | Some t => St (fupd nx t (Some i)) (dat s) (fre s) (qh s) (Some i) (drp s) h (wrk s) (out s)
          end
      end
  end.

(** syslog_queue_run (rtpp_syslog_async.c:83-119): taking the head, writing it, giving it back *)
Definition take (s : st) : st :=
  match wrk s, qh s with
  | WIdle, Some i => St (nxt s) (dat s) (fre s) (nxt s i) (qt s) (drp s) (held s) (WHas i) (out s)
  | _, _ => s
  end.
Definition write (s : st) : st :=
  match wrk s with
  | WHas i =>
      match dat s i with
      | Some l => St (nxt s) (dat s) (fre s) (qh s) (qt s) (drp s) (held s) (WDone i) (out s ++ [l])
      | None => St (nxt s) (dat s) (fre s) (qh s) (qt s) (drp s) (held s) WExit (out s)
      end
  | _ => s
  end.
Definition give_back (s : st) : st :=
  match wrk s with
  | WDone i => St (fupd (nxt s) i (fre s)) (dat s) (Some i) (qh s) (qt s) (drp s) (held s) WIdle (out s)
  | _ => s
  end.

Definition step (s : st) (o : op) : st :=
  match o with
  | OGet p t => get_free false (Some (p, t)) s
  | OGetExit => get_free true None s
  | OPut n => put_item n s
  | OTake => take s
  | OWrite => write s
  | OFree => give_back s
  end.
Definition run (s : st) (l : list op) : st := fold_left step l s.

(** vsyslog_async (rtpp_syslog_async.c:258-286): the text put in a buffer of [m] bytes, without the final NUL.  [msg] is
    what vsnprintf() prints, None if it fails.  TOob: bytes before the buffer are written.  Simplification: vsnprintf()
    writes nothing when it fails *)
Inductive text := TText (t : list Z) | TOob.
Definition cutz (n : Z) (l : list Z) : list Z := firstn (Z.to_nat n) l.
Definition compose (m : Z) (pre : list Z) (msg : option (list Z)) (post : option (list Z)) : text :=
  let s1 := if m <=? Z.of_nat (length pre) then m - 1 else Z.of_nat (length pre) in
  let d := cutz s1 pre in
  let l := m - s1 in
  if l <=? 1 then TText d
  else
    match msg with
    | Some msg =>
        let s2 := if l <=? Z.of_nat (length msg) then l - 1 else Z.of_nat (length msg) in
        let d := d ++ cutz s2 msg in
        let l := l - s2 in
        match post with
        | Some post => if l <=? 1 then TText d else TText (d ++ cutz (l - 1) post)
        | None => TText d
        end
    | None =>
        match post with
        | Some post => if s1 <=? 0 then TOob else TText (cutz (s1 - 1) pre ++ cutz l post)
        | None => TText d
        end
    end.
