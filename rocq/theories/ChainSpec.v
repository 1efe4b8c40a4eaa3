(** C59: what a user expects of sub-commands. *)
From Verif Require Import Base SessModel SessSpec ChainModel.
From Verif Require TtlModel.

(** The time to live of a side *)
Definition ttl_of (p : TtlModel.pipe_ttl) (d : Z) : TtlModel.ttl :=
  match p with TtlModel.Shared t => t | TtlModel.Indep t0 t1 => if d =? 0 then t0 else t1 end.
(** The last value set for a stream; with one time to live for both streams the one set for either counts. *)
Definition ttl_step (shared : bool) (uid d : Z) (v : option Z) (x : done) : option Z :=
  match x with DTtl u e w => if (u =? uid) && (shared || (e =? d)) then Some w else v | _ => v end.
Definition last_ttl (shared : bool) (uid d : Z) (l : list done) : option Z := fold_left (ttl_step shared uid d) l None.
Definition tos_step (uid d : Z) (v : Z) (x : done) : Z :=
  match x with DTos u e w r => if (u =? uid) && (e =? d) then w else v | _ => v end.
Definition last_tos (dflt uid d : Z) (l : list done) : Z := fold_left (tos_step uid d) l dflt.
(** All the requests for a stream succeeded, with values that the parser lets through. *)
Definition tos_fine (uid d : Z) (l : list done) : Prop := forall v r, In (DTos uid d v r) l -> r = 0 /\ 0 < v.

(** Some of a list of sub-commands are run: all with success, or up to the first one without. *)
Definition stops_at_failure (subs : list sub) (rs : list (Z * option reply)) : Prop :=
  (length rs = length subs /\ Forall (fun r => fst r = 0) rs) \/
  (exists rs' r, rs = rs' ++ [r] /\ fst r <> 0 /\ Forall (fun r => fst r = 0) rs' /\ (length rs <= length subs)%nat).

(** Sub-commands that leave the table alone *)
Definition calm (b : sub) : Prop := match b with SubTtl _ _ | SubTos _ _ _ _ | SubOther _ => True | _ => False end.

(** The commands that can be followed by sub-commands *)
Inductive main :=
| MUpdate (call from : list Z) (to : option (list Z)) (u : uopts) (listen : option Z) (refuse : bool)
| MLookup (call from : list Z) (to : option (list Z)) (u : uopts) (listen : option Z)
| MQuery (call from : list Z) (to : option (list Z)) (ok : bool).
Definition chain (m : main) (subs : list sub) : cmd :=
  match m with
  | MUpdate call from to u l r => CUpdate call from to u l r subs
  | MLookup call from to u l => CLookup call from to u l subs
  | MQuery call from to ok => CQuery call from to ok subs
  end.
Definition m_call (m : main) : list Z := match m with MUpdate c _ _ _ _ _ | MLookup c _ _ _ _ | MQuery c _ _ _ => c end.
Definition m_from (m : main) : list Z := match m with MUpdate _ f _ _ _ _ | MLookup _ f _ _ _ | MQuery _ f _ _ => f end.
Definition m_to (m : main) : option (list Z) := match m with MUpdate _ _ t _ _ _ | MLookup _ _ t _ _ | MQuery _ _ t _ => t end.
(** The session that a command is about, and the side its from tag stands for: the one that is found, or else the new one. *)
Definition about (tb : table) (m : main) (uid side : Z) : Prop :=
  (exists s, find_stream (t_ht tb) (m_call m) (m_from m) (m_to m) = Some (s, side) /\ uid = s_uid s) \/
  (find_stream (t_ht tb) (m_call m) (m_from m) (m_to m) = None /\ uid = t_next tb /\ side = 0).
(** The stream whose remote address a command sets, or asks for: U is about the sender, so that its stream is the one towards the other party; L the other way round. *)
Definition remote_side (m : main) (side : Z) : Z := match m with MLookup _ _ _ _ _ => side | _ => 1 - side end.
(** What the sub-commands that were run set on which stream, if the remote address given last was the one of stream [i]. *)
Fixpoint settings (uid i : Z) (subs : list sub) (rs : list (Z * option reply)) : list done :=
  match subs, rs with
  | SubTtl rev v :: t, _ :: rt => DTtl uid (if rev then 1 - i else i) v :: settings uid i t rt
  | SubTos rev v _ _ :: t, r :: rt => DTos uid (if rev then 1 - i else i) v (fst r) :: settings uid i t rt
  | SubL _ _ :: t, _ :: rt => settings uid (1 - i) t rt
  | _ :: t, _ :: rt => settings uid i t rt
  | _, _ => []
  end.
(** Both timers of a session are at their full values. *)
Definition restarted (e : ext) : Prop := forall d, TtlModel.cur_ttl (ttl_of (x_ttl e) d) = TtlModel.max_ttl (ttl_of (x_ttl e) d).
