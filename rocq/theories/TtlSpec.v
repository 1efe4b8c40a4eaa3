(** Idle time specification of session timeouts, in terms of the event history only. *)
From Verif Require Import Base TtlModel.

(** Does stream [s] of session [i] share the TTL of stream [s']? *)
Definition same_group (shared : bool) (s s' : side) : bool :=
  shared || match s, s' with SideO, SideO | SideA, SideA => true | _, _ => false end.

(** Sweep visits since the last activity (packet or ttl change) concerning stream [s] of
    session [i], given the events after its creation, oldest first. *)
Fixpoint idle (i : Z) (shared : bool) (s : side) (acc : Z) (h : list event) : Z :=
  match h with
  | [] => acc
  | EVisit j :: t => idle i shared s (if j =? i then acc + 1 else acc) t
  | EPacket j s' :: t => idle i shared s (if (j =? i) && same_group shared s s' then 0 else acc) t
  | ESetTtl j s' _ :: t => idle i shared s (if (j =? i) && same_group shared s s' then 0 else acc) t
  | _ :: t => idle i shared s acc t
  end.

(** The limit in force: the last TTL set for the stream's group. *)
Fixpoint limit (i : Z) (shared : bool) (s : side) (cur : Z) (h : list event) : Z :=
  match h with
  | [] => cur
  | ESetTtl j s' m :: t => limit i shared s (if (j =? i) && same_group shared s s' then m else cur) t
  | _ :: t => limit i shared s cur t
  end.

(** [timed_out_at i sh n0 n1 h]: a visit right after history [h] (events since the creation
    of the session) must find the session idle for its full limit on some stream. *)
Definition expired (i : Z) (sh : bool) (n0 n1 : Z) (h : list event) : Prop :=
  idle i sh SideO 0 h >= limit i sh SideO n0 h \/
  idle i sh SideA 0 h >= limit i sh SideA (if sh then n0 else n1) h.

(** Session still there after history [h] since its creation: no delete, and no visit
    found it expired. *)
Definition survives (i : Z) (sh : bool) (n0 n1 : Z) (h : list event) : Prop :=
  forall h1 e h2, h = h1 ++ e :: h2 ->
    (e <> EDelete i) /\ (e = EVisit i -> ~ expired i sh n0 n1 h1).

(** The history ends the session by timeout: a visit found it expired while it was alive. *)
Definition times_out (i : Z) (sh : bool) (n0 n1 : Z) (h : list event) : Prop :=
  exists h1 h2, h = h1 ++ EVisit i :: h2 /\ survives i sh n0 n1 h1 /\ expired i sh n0 n1 h1.

Definition creates (i : Z) (e : event) : bool :=
  match e with ECreate j _ _ _ _ => j =? i | _ => false end.

(** [i] is created once, by event [ECreate i sh n0 n1 nt] between [pre] and [h]. *)
Definition created_once (i : Z) (pre h : list event) : Prop :=
  existsb (creates i) pre = false /\ existsb (creates i) h = false.

Definition ttls_are_ints (h : list event) : Prop :=
  Forall (fun e => match e with
                   | ESetTtl _ _ m => -2147483648 <= m < 2147483648
                   | _ => True end) h.

(** TTL object on its own: decrements since the last (re)set, and the value set. *)
Fixpoint decrs (acc : Z) (h : list ttl_op) : Z :=
  match h with
  | [] => acc
  | TDecr :: t => decrs (acc + 1) t
  | TGet :: t => decrs acc t
  | _ :: t => decrs 0 t
  end.
Fixpoint ttl_set (cur : Z) (h : list ttl_op) : Z :=
  match h with
  | [] => cur
  | TResetWith m :: t => ttl_set m t
  | _ :: t => ttl_set cur t
  end.

(** A history of calls on one TTL object; every TTL set fits a non-negative int. *)
Definition ttl_run (t : ttl) (h : list ttl_op) : ttl := fold_left (fun t o => fst (ttl_step t o)) h t.

Definition ops_ok (h : list ttl_op) : Prop :=
  Forall (fun o => match o with TResetWith m => 0 <= m < 2147483648 | _ => True end) h.

Definition in_int (z : Z) : Prop := -2147483648 <= z < 2147483648.

Definition is_visit (e : event) : bool := match e with EVisit _ => true | _ => false end.

(** Sessions that disappear at sweep visits, over a whole history. *)
Fixpoint swept (v : srv) (h : list event) : Z :=
  match h with
  | [] => 0
  | e :: t =>
      (if is_visit e then Z.of_nat (length (sv_tab v)) - Z.of_nat (length (sv_tab (srv_step v e))) else 0)
      + swept (srv_step v e) t
  end.

