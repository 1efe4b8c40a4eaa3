(** What the modules are promised, said without the model's functions. *)
From Verif Require Import Base MifModel.
Open Scope nat_scope.

(** The items a trace says were taken for module [i], in order *)
Fixpoint taken (i : nat) (tr : list res) : list item :=
  match tr with
  | [] => []
  | RAcct j a Taken :: tr => if j =? i then IAcct a :: taken i tr else taken i tr
  | RRtcp j r Taken :: tr => if j =? i then IRtcp r :: taken i tr else taken i tr
  | _ :: tr => taken i tr
  end.

(** How often session [a] was offered to module [i] *)
Fixpoint offers (i a : nat) (tr : list res) : nat :=
  match tr with
  | RAcct j b _ :: tr => (if (j =? i) && (b =? a) then 1 else 0) + offers i a tr
  | _ :: tr => offers i a tr
  | [] => 0
  end.

(** The items a module has been handed *)
Fixpoint handed (l : list mev) : list item :=
  match l with
  | EvSess a :: l => IAcct a :: handed l
  | EvRtcp r :: l => IRtcp r :: handed l
  | _ :: l => handed l
  | [] => []
  end.

(** The accounting still waiting in a queue *)
Definition waiting (q : list item) : list item :=
  filter (fun x => match x with ITerm => false | _ => true end) q.

Definition is_load_fail (o : op) : bool := match o with OLoadFail => true | _ => false end.

(** Steps of the shutdown: of main and of the threads of the modules *)
Definition shutdown_op (o : op) : bool := match o with OMain | OWork _ => true | _ => false end.

Fixpoint total (f : nat -> nat) (n : nat) : nat := match n with 0 => 0 | S n => f n + total f n end.

(** What is left to do in a shutdown *)
Definition todo (w : mw) : nat :=
  match w_phase w with
  | PKap k wt =>
      S (total (fun i => length (m_q (w_mod w i))) (w_n w) + 3 * (w_n w - k) - (if wt then 2 else 0))
  | _ => 0
  end.

(** What a module sees when it is set up *)
Definition calls (d : mdesc) : list mev :=
  match d_ctor d with Some _ => [EvCtor] | None => [] end ++ match d_config d with Some _ => [EvConf] | None => [] end.

(** Accounting handed over *)
Definition delivery (e : mev) : Prop := match e with EvSess _ | EvRtcp _ => True | _ => False end.

(** Modules of the same kind loaded before module [i] *)
Definition earlier (w : mw) (i : nat) : list nat :=
  filter (fun j => d_id (m_d (w_mod w j)) =? d_id (m_d (w_mod w i))) (seq 0 i).
