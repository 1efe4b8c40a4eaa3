(** Peaks of a sequence of values. *)
From Verif Require Import Base FiltModel.

Definition greatest (m : Z) (l : list Z) : Prop := In m l /\ forall v, In v l -> v <= m.
Definition least (m : Z) (l : list Z) : Prop := In m l /\ forall v, In v l -> m <= v.
Definition is_int (o : op) : Prop := match o with ApplyInt _ => True | _ => False end.
(** What the filter outputs, by itself *)
Fixpoint outputs (mix : Z -> Z -> Z) (v : Z) (os : list op) : list Z :=
  match os with [] => [] | (Apply x | ApplyInt x) :: t => mix x v :: outputs mix (mix x v) t end.
