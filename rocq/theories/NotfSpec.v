(** What the delivery of notifications should look like from outside: over what is observed only. *)
From Verif Require Import Base NotfModel.

(** The notifications accepted: number, target, tag. Their fates: number, target, delivered or not. *)
Definition accepted (ev : list event) : list (nat * nat * list Z) :=
  flat_map (fun e => match e with EAccept n t tag => [(n, t, tag)] | _ => [] end) ev.
Definition fates (ev : list event) : list (nat * nat * bool) :=
  flat_map (fun e => match e with EDone n t => [(n, t, true)] | EGiveUp n t => [(n, t, false)] | _ => [] end) ev.

(** The bytes the peer of target [t] is sent, all connections together. *)
Definition bytes_to (ev : list event) (t : nat) : list Z :=
  flat_map (fun e => match e with ESend _ u (Some b) => if (u =? t)%nat then b else [] | _ => [] end) ev.
(** The lines it should be sent: tag and newline of each notification delivered to it, in the order of scheduling. [fs] are
    the fates of the notifications [acc]. *)
Fixpoint lines_to (acc : list (nat * nat * list Z)) (fs : list (nat * nat * bool)) (t : nat) : list Z :=
  match acc, fs with
  | (_, u, tag) :: acc, (_, _, ok) :: fs => (if (u =? t)%nat && ok then tag ++ [10] else []) ++ lines_to acc fs t
  | _, _ => []
  end.

(** The system takes everything it is given. *)
Definition takes_all (os : list op) : Prop :=
  forall k t tag mem, In (Step (ASend (Took k))) os -> In (Sched t tag mem) os -> (length tag < k)%nat.

(** ** Descriptors *)

(** Which descriptors are open, and to which targets they are connected. *)
Record fds := mkFds { isopen : nat -> Prop; peer : nat -> nat -> Prop }.
(** A trace uses descriptors well: provided socket() returns none that is open, only open ones are used, what is sent to a
    target goes over a descriptor connected to it (a failed send breaks the connection), and those for which [keep] holds are
    never closed. *)
Fixpoint well_used (keep : nat -> Prop) (d : fds) (ev : list event) : Prop :=
  match ev with
  | [] => True
  | ESocket (Some f) :: ev => ~ isopen d f ->
      well_used keep (mkFds (fun g => g = f \/ isopen d g) (fun g t => g <> f /\ peer d g t)) ev
  | EBind f _ :: ev => isopen d f /\ well_used keep d ev
  | EConnect f t ok :: ev => isopen d f /\
      well_used keep (mkFds (isopen d) (fun g u => peer d g u \/ (g = f /\ u = t /\ ok = true))) ev
  | EClose f :: ev => isopen d f /\ ~ keep f /\
      well_used keep (mkFds (fun g => g <> f /\ isopen d g) (fun g t => g <> f /\ peer d g t)) ev
  | EIntr f t :: ev | ESend f t (Some _) :: ev => isopen d f /\ peer d f t /\ well_used keep d ev
  | ESend f t None :: ev => isopen d f /\ peer d f t /\
      well_used keep (mkFds (isopen d) (fun g u => ~ (g = f /\ u = t) /\ peer d g u)) ev
  | _ :: ev => well_used keep d ev
  end.
(** Descriptors made and not closed. *)
Definition left_open (ev : list event) : Z :=
  zsum (fun e => match e with ESocket (Some _) => 1 | EClose _ => -1 | _ => 0 end) ev.

(** ** Attempts *)

(** For the notification in hand: how often sending was tried, and whether the last attempt to connect failed. A notification is
    tried at most four times and given up only after the fourth or when a connection cannot be had. *)
Fixpoint patient (sends : nat) (noconn : bool) (ev : list event) : Prop :=
  match ev with
  | [] => True
  | ESend _ _ None :: ev => (sends < 4)%nat /\ patient (S sends) noconn ev
  | ESend _ _ (Some _) :: ev => (sends < 4)%nat /\ match ev with EDone _ _ :: _ => True | _ => False end /\ patient (S sends) noconn ev
  | ESocket f :: ev => (sends < 4)%nat /\ patient sends (match f with None => true | Some _ => false end) ev
  | EBind _ ok :: ev => patient sends (negb ok) ev
  | EConnect _ _ ok :: ev => patient sends (negb ok) ev
  | EGiveUp _ _ :: ev => (noconn = true \/ sends = 4%nat) /\ patient 0 false ev
  | EDone _ _ :: ev => (1 <= sends)%nat /\ patient 0 false ev
  | _ :: ev => patient sends noconn ev
  end.

(** ** Progress *)

(** A sequence of answers each of which is what the delivering thread is waiting for; sends are not interrupted. *)
Definition answers (s : st) (a : answer) : Prop :=
  match at_ s, a with
  | Idle, ANone => queue s <> []
  | Check _, ANone | Recheck _, ANone | Socket _, ASocket _ | Bind _, ABind _ | Connect _, AConnect _ => True
  | Send _, ASend r => r <> Intr
  | _, _ => False
  end.
Fixpoint going (s : st) (l : list answer) : Prop :=
  match l with [] => True | a :: l => answers s a /\ going (fst (step s a)) l end.

(** Nothing fails: neither memory, nor making sockets, nor connecting, nor sending. *)
Definition healthy (o : op) : Prop :=
  match o with
  | Step (ASocket None) | Step (ABind false) | Step (AConnect false) | Step (ASend Fail) => False
  | _ => True
  end.
