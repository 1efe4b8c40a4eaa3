(** What the users of the counters rely on. *)
From Verif Require Import Base StatsModel.

(** Where a name is in the list of counters; -1: it is not there *)
Fixpoint index_of (names : list (list Z)) (s : list Z) : Z :=
  match names with
  | [] => -1
  | x :: names' => if list_eq_dec Z.eq_dec x s then 0
                   else match index_of names' s with -1 => -1 | i => i + 1 end
  end.
(** The counter an update is for *)
Definition target (names : list (list Z)) (x : op) : Z :=
  match x with UpdIdx i _ => i | UpdName s _ => index_of names s | UpdNameD s _ => index_of names s end.
Definition amount (x : op) : Z := match x with UpdIdx _ n => n | UpdName _ n => n | UpdNameD _ d => d end.
Definition is_double (x : op) : bool := match x with UpdNameD _ _ => true | _ => false end.
(** The amounts added to counter [i] by a history, in order *)
Definition amounts (names : list (list Z)) (i : Z) (xs : list op) : list Z :=
  map amount (filter (fun x => target names x =? i) xs).
