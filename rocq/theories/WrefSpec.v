(** Vocabulary of the weak reference theorems (C14). *)
From Verif Require Import Base WrefModel.

(** No two getref calls overlap in the run of [sched] from [s]. *)
Fixpoint serial_from (s : wsys) (sched : list (nat * wop * bool)) : Prop :=
  match sched with
  | [] => True
  | e :: t => forall s', w_step s e = Some s' -> ws_overlap s' = false /\ serial_from s' t
  end.

(** What C14 asks of a run: the released target is never touched, and every getref call that
    returned the target did so while it still had references; whoever holds a reference holds a
    live target. *)
Definition getref_safe (r : option wsys) : Prop :=
  exists s, r = Some s /\
    (forall res dying_then, In (res, dying_then) (ws_ret s) -> res = true -> dying_then = false) /\
    (forall th, In th (ws_thr s) -> 0 < w_own th -> ws_dying s = false /\ ws_freed s = false).

(** A target with [owns] references spread over the threads. *)
Definition wref_start (owns : list Z) : Prop := Forall (fun n => 0 <= n) owns /\ 1 <= zsum (fun x => x) owns.
