(** C13: what counts as a reference, and when an object is being destroyed. *)
From Verif Require Import Base RefcntModel.

Definition dent_eqb (a b : dent) : bool :=
  match a, b with
  | DFun i, DFun j => i =? j | DFree, DFree => true | DRc i, DRc j => (i =? j)%nat | _, _ => false
  end.
Definition dcount (d : dent) (l : list dent) : Z := zsum (fun x => if dent_eqb d x then 1 else 0) l.
Definition ncount (o : nat) (l : list nat) : Z := zsum (fun x => if (o =? x)%nat then 1 else 0) l.

(** References to [p]: owned by a thread, being dropped by a thread that has not yet done so, or
    attached (attach_rc) to some object that has not dropped it yet. *)
Definition thr_refs (p : nat) (th : rthr) : Z :=
  ncount p (t_hold th) +
  match t_pc th with RDec o | RDecSub o => if (p =? o)%nat then 1 else 0 | _ => 0 end.
Definition obj_refs (p : nat) (x : robj) : Z := dcount (DRc p) (o_att x) - dcount (DRc p) (o_run x).
Definition refs (s : rsys) (p : nat) : Z := zsum (thr_refs p) (r_thr s) + zsum (obj_refs p) (r_obj s).

(** Some thread is between dropping the last reference of [p] and the end of its destructors. *)
Definition destroying (s : rsys) (p : nat) : Prop :=
  exists th, In th (r_thr s) /\ (t_pc th = RDecZero p \/ exists i, In (p, i) (t_stk th)).

Definition quiescent (s : rsys) : Prop := forall th, In th (r_thr s) -> t_pc th = RIdle /\ t_stk th = [].
