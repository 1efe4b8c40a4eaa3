(** C23 in terms of what is observed. *)
From Verif Require Import Base RcacheModel.

Definition trace := list (event * out).

(** The guaranteed time: 35 s. *)
Definition KEEP : Z := 35000.

(** [answered tr c t r]: [tr] is one complete execution of a command with cookie [c] received at [t]
    that was answered with [r], the answer having been stored; only the timer runs meanwhile. *)
Definition answered (tr : trace) (c : list Z) (t : Z) (r : list Z) : Prop :=
  exists ticks mem, tr = (Recv c t, Execute) :: map (fun x => (Tick x, Quiet)) ticks ++ [(Finish r true mem, Sent r)].

(** No clean-up after the guaranteed time of a command received at [t]. *)
Definition kept (tr : trace) (t : Z) : Prop := forall x o, In (Tick x, o) tr -> x <= t + KEEP.
(** No command with cookie [c] is executed. *)
Definition not_executed (tr : trace) (c : list Z) : Prop := forall t, ~ In (Recv c t, Execute) tr.
