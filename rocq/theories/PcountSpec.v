(** C09: what the counters should say. *)
From Verif Require Import Base PcountModel.

Definition is_reld (o : pc_op) : bool := match o with PReld => true | _ => false end.
Definition is_drop (o : pc_op) : bool := match o with PDrop _ => true | _ => false end.
Definition is_ignr (o : pc_op) : bool := match o with PIgnr => true | _ => false end.
Definition is_drop_at (m : Z) (o : pc_op) : bool := match o with PDrop m' => m' =? m | _ => false end.

(** How many of the started registrations satisfy [f]. *)
Definition how_many (f : pc_op -> bool) (l : list pc_op) : Z := Z.of_nat (length (filter f l)).

(** Pointers in the table of drop locations. *)
Definition loc_ptrs (l : list ploc) : list Z :=
  flat_map (fun x => match fst x with Some p => [p] | None => [] end) l.

Definition all_idle (s : pc_sys) : Prop := forall a, In a (ps_thr s) -> a = PIdle.

(** Arrival histories: largest arrival time so far and longest silence. *)
Fixpoint max_time (d : Z) (h : list (Z * Z)) : Z :=
  match h with [] => d | (m, _) :: t => max_time (Z.max d m) t end.

(** Longest distance between an arrival and the latest arrival before it. *)
Fixpoint longest_gap (prev : Z) (h : list (Z * Z)) : Z :=
  match h with
  | [] => 0
  | (m, _) :: t => Z.max (Z.abs (m - prev)) (longest_gap (Z.max prev m) t)
  end.
