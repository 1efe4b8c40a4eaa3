(** Model of the reader/writer lock: src/rtpp_rw_lock.c:88-141, any number of threads. A step is what happens between two
    points where a thread may block: taking cnt_lock together with the code up to its release (nothing else touches the
    counters without it), except that the first reader keeps cnt_lock while it waits for write_lock (line 98). The counters
    do not wrap: there are fewer than 2^31 threads. *)
From Verif Require Import Base.

(** Where a thread is *)
Inductive pc :=
| Out                (* holds nothing *)
| RdC                (* lock(RD), before line 94 *)
| RdW                (* line 98: first reader, has cnt_lock, wants write_lock *)
| InRd               (* holds the lock for reading *)
| RdU                (* unlock(RD), before line 115 *)
| Up                 (* upgrade, before line 132 *)
| WrC                (* lock(WR), before line 94 *)
| WrW                (* line 104 *)
| InWr               (* holds the lock for writing *)
| WrU.               (* unlock(WR), after line 114 *)
(** struct rtpp_rw_lock_priv; a mutex is free or owned by a thread *)
Record st := mkSt { cnt : option nat; wl : option nat; nr : Z; nw : Z; pcs : list pc }.
Definition start (n : nat) : st := mkSt None None 0 0 (repeat Out n).

(** What a thread outside the functions decides to do next *)
Inductive act := LockRd | LockWr | Unlock | Upgrade.
Inductive event := EUpgraded (t : nat) | ERefused (t : nat) | EForeign (t : nat).

Definition go (s : st) (t : nat) (p : pc) : list pc := upd (pcs s) t p.
(** pthread_mutex_unlock of a mutex another thread has locked: undefined by POSIX for this kind of mutex; shown as an event,
    and the mutex is free afterwards, as with the usual implementations *)
Definition foreign (o : option nat) (t : nat) : list event :=
  match o with Some u => if Nat.eqb u t then [] else [EForeign t] | None => [EForeign t] end.

(** A step of thread [t]; a thread that has to wait does not move *)
Definition step (s : st) (t : nat) (a : act) : st * list event :=
  match nth_error (pcs s) t with
  | None => (s, [])
  | Some p =>
    match p, a with
    | Out, LockRd => (mkSt (cnt s) (wl s) (nr s) (nw s) (go s t RdC), [])
    | Out, LockWr => (mkSt (cnt s) (wl s) (nr s) (nw s) (go s t WrC), [])
    | InRd, Unlock => (mkSt (cnt s) (wl s) (nr s) (nw s) (go s t RdU), [])
    | InRd, Upgrade => (mkSt (cnt s) (wl s) (nr s) (nw s) (go s t Up), [])
    (* line 114 *)
    | InWr, Unlock => (mkSt (cnt s) None (nr s) (nw s) (go s t WrU), foreign (wl s) t)
    (* lines 94-102, RTPP_RW_LOCK_RD *)
    | RdC, _ =>
        match cnt s with
        | Some _ => (s, [])
        | None => if nr s + 1 =? 1 then (mkSt (Some t) (wl s) (nr s + 1) (nw s) (go s t RdW), [])
                  else (mkSt None (wl s) (nr s + 1) (nw s) (go s t InRd), [])
        end
    | RdW, _ =>
        match wl s with
        | Some _ => (s, [])
        | None => (mkSt None (Some t) (nr s) (nw s) (go s t InRd), foreign (cnt s) t)
        end
    (* lines 94-102, RTPP_RW_LOCK_WR *)
    | WrC, _ =>
        match cnt s with
        | Some _ => (s, [])
        | None => (mkSt None (wl s) (nr s) (nw s + 1) (go s t WrW), [])
        end
    | WrW, _ =>
        match wl s with
        | Some _ => (s, [])
        | None => (mkSt (cnt s) (Some t) (nr s) (nw s) (go s t InWr), [])
        end
    (* lines 115-123, RTPP_RW_LOCK_RD *)
    | RdU, _ =>
        match cnt s with
        | Some _ => (s, [])
        | None => if nr s - 1 =? 0 then (mkSt None None (nr s - 1) (nw s) (go s t Out), foreign (wl s) t)
                  else (mkSt None (wl s) (nr s - 1) (nw s) (go s t Out), [])
        end
    (* lines 115-123, RTPP_RW_LOCK_WR *)
    | WrU, _ =>
        match cnt s with
        | Some _ => (s, [])
        | None => (mkSt None (wl s) (nr s) (nw s - 1) (go s t Out), [])
        end
    (* lines 132-140 *)
    | Up, _ =>
        match cnt s with
        | Some _ => (s, [])
        | None => if (0 <? nw s) || (1 <? nr s) then (mkSt None (wl s) (nr s) (nw s) (go s t InRd), [ERefused t])
                  else (mkSt None (wl s) 0 1 (go s t InWr), [EUpgraded t])
        end
    | _, _ => (s, [])
    end
  end.
Fixpoint run (s : st) (os : list (nat * act)) : st * list event :=
  match os with
  | [] => (s, [])
  | (t, a) :: r => let '(s1, e) := step s t a in let '(s2, tr) := run s1 r in (s2, e ++ tr)
  end.
