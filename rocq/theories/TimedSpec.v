(** C17: the life of one timed task, as seen from outside. *)
From Verif Require Import Base TimedModel.

(** not scheduled yet; due at [d]; its callback runs since [t]; finished (done or
    cancelled); repeated without a positive period, which hangs the timer thread. *)
Inductive life := Unborn | Due (d off : Z) | Running (t d off : Z) | Finished | Hung.

Definition about (id : Z) (b : obs) : Prop :=
  match b with
  | OSched i _ _ | OFire i _ | OMore i | OEnd i | OCancel i _ | ODrain i => i = id
  | ORound _ => True
  | ONone => False
  end.

Inductive lives (id : Z) : list obs -> life -> Prop :=
| l_nil : lives id [] Unborn
| l_other tr b st : lives id tr st -> ~ about id b -> lives id (tr ++ [b]) st
| l_sched tr off now : lives id tr Unborn -> lives id (tr ++ [OSched id off now]) (Due (now + off) off)
(* never early *)
| l_fire tr d off t : lives id tr (Due d off) -> d <= t -> lives id (tr ++ [OFire id t]) (Running t d off)
(* again at the next multiple of the period that is in the future *)
| l_more tr t d off k : lives id tr (Running t d off) -> 1 <= k -> d + (k - 1) * off <= t < d + k * off -> lives id (tr ++ [OMore id]) (Due (d + k * off) off)
| l_hang tr t d off : lives id tr (Running t d off) -> off <= 0 -> lives id (tr ++ [OMore id]) Hung
| l_end tr t d off : lives id tr (Running t d off) -> lives id (tr ++ [OEnd id]) Finished
| l_cancel tr d off : lives id tr (Due d off) -> lives id (tr ++ [OCancel id true]) Finished
| l_drain tr d off : lives id tr (Due d off) -> lives id (tr ++ [ODrain id]) Finished
(* a cancel fails only if the task is not waiting *)
| l_late tr st : lives id tr st -> (forall d off, st <> Due d off) -> lives id (tr ++ [OCancel id false]) st
(* at the end of a round no task is overdue *)
| l_round tr st t : lives id tr st -> (forall d off, st = Due d off -> t < d) -> lives id (tr ++ [ORound t]) st.

