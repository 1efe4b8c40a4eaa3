(** What the users of the packet processor chain rely on. *)
From Verif Require Import Base PprocModel.

(** Processors registered with a manager, in the order they are in *)
Definition registered (s : st) (m : nat) : option (list proc) :=
  match nth_error (mgrs s) m with
  | Some (Some k) => option_map t_ps (nth_error (tabs s) k)
  | _ => None
  end.
(** Positions never go down along the list *)
Definition ascending (ps : list proc) : Prop :=
  forall i j p q, (i < j)%nat -> nth_error ps i = Some p -> nth_error ps j = Some q -> p_ord p <= p_ord q.

(** Events of one thread *)
Definition mine (t : nat) (e : event) : bool :=
  match e with
  | ETaste u _ _ | ECall u _ _ | ERelease u _ | ECount u | EReturn u _ => Nat.eqb u t
  | _ => false
  end.

(** A processor either declines the packet or is called and answers with an action (bit 1: the packet is taken over, bit 2: it
    is to be dropped) *)
Inductive visit := Declined (p : proc) | Called (p : proc) (a : Z).
Definition vproc (v : visit) : proc := match v with Declined p => p | Called p _ => p end.
Definition vact (v : visit) : Z := match v with Declined _ => 0 | Called _ a => a end.
Definition takes (v : visit) : bool := Z.testbit (vact v) 1.
Definition drops (v : visit) : bool := Z.testbit (vact v) 2.
Definition stops (v : visit) : bool := takes v || drops v.
Definition legal (v : visit) : Prop := match v with Declined p => p_taste p = true | Called _ _ => True end.
Definition shown (t : nat) (v : visit) : list event :=
  match v with
  | Declined p => [ETaste t p false]
  | Called p a => (if p_taste p then [ETaste t p true] else []) ++ [ECall t p a]
  end.
(** The processors a packet has to pass when processing starts at position [sa] (0: from the beginning) *)
Definition wanted (sa : Z) (p : proc) : bool := negb (0 <? sa) || (sa <=? p_ord p).
(** What happens when the chain is through: the packet is released unless somebody took it and nobody dropped it, and a
    released packet is counted as discarded unless the proxy itself generated it *)
Definition ending (t : nat) (pk : Z) (lg : bool) (vs : list visit) : list event :=
  (if existsb takes vs && negb (existsb drops vs) then []
   else ERelease t pk :: (if lg then [] else [ECount t])) ++ [EReturn t (fold_left Z.lor (map vact vs) 0)].

(** Thread [t] has done [evs] with packet [pk] and the processors [ps]; [fin]: it is through *)
Definition handled (ps : list proc) (sa pk : Z) (lg : bool) (t : nat) (evs : list event) (fin : bool) : Prop :=
  exists vs rest,
    map vproc vs ++ rest = filter (wanted sa) ps /\
    Forall legal vs /\
    Forall (fun v => stops v = false) (removelast vs) /\
    (if fin then (rest = [] \/ exists v, last (map Some vs) None = Some v /\ stops v = true) /\
                 evs = flat_map (shown t) vs ++ ending t pk lg vs
     else evs = flat_map (shown t) vs).

Definition starts (t : nat) (x : op) : bool := match x with Start u _ _ _ _ => Nat.eqb u t | _ => false end.
Definition idle (s : st) (t : nat) : bool := match nth_error (thrs s) t with Some Idle => true | _ => false end.

(** A processor can still be called: it is registered, or a thread is going through a list it is on *)
Definition in_use (s : st) (p : proc) : Prop :=
  (exists m ps, registered s m = Some ps /\ In p ps) \/
  (exists t k i res sa pk lg tb, nth_error (thrs s) t = Some (Busy k i res sa pk lg) /\ nth_error (tabs s) k = Some tb /\ In p (t_ps tb)).

(** Only managers whose processors own nothing were cloned *)
Definition plain_clones (tr : list event) : Prop :=
  forall ps p, In (EClone ps) tr -> In p ps -> p_obj p = None.
(** No list ever had more than 23 processors that own something *)
Definition small_tables (tr : list event) : Prop := forall n, In (ETable n) tr -> (n <= 23)%nat.
