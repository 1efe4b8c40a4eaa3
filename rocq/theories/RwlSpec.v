(** What a reader/writer lock promises. *)
From Verif Require Import Base RwlModel.

Definition at_pc (s : st) (t : nat) (p : pc) : Prop := nth_error (pcs s) t = Some p.
(** [t] has got the lock for reading and has not begun to give it back (an upgrade in progress is still reading); *)
Definition reads (s : st) (t : nat) : Prop := at_pc s t InRd \/ at_pc s t Up.
(** for writing *)
Definition writes (s : st) (t : nat) : Prop := at_pc s t InWr.
Definition reachable (n : nat) (s : st) : Prop := exists os, fst (run (start n) os) = s.
(** [t] is inside one of the functions *)
Definition busy (s : st) (t : nat) : Prop :=
  exists p, at_pc s t p /\ p <> Out /\ p <> InRd /\ p <> InWr.
