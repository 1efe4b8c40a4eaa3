(** What the parties of a call and the operator rely on. *)
From Verif Require Import Base AddrModel LatchModel RelayModel.

Definition sid_eq_dec (x y : sid) : {x = y} + {x <> y}.
Proof. decide equality; auto using Bool.bool_dec, Nat.eq_dec. Defined.

(** The stream of the other party: same session, same kind *)
Definition peer (x : sid) : sid := mkSid (s_call x) (s_rtcp x) (negb (s_side x)).

(** What became of a datagram *)
Inductive fate := Relayed (a : sockaddr) | Dropped (w : why) | Ignored | Taken (w : why) | Flushed | Lost.
Definition fates_of (e : event) : list (sid * (pkt * fate)) :=
  match e with
  | ESend o a k => [(peer o, (k, Relayed a))]
  | EIgnore x k => [(x, (k, Ignored))]
  | EDrop x k w => [(x, (k, Dropped w))]
  | ETake x k w => [(x, (k, Taken w))]
  | EDrain x ks => map (fun k => (x, (k, Flushed))) ks
  | ELost x ks => map (fun k => (x, (k, Lost))) ks
  | _ => []
  end.
Definition on {A} (x : sid) (l : list (sid * A)) : list A :=
  flat_map (fun p => if sid_eq_dec (fst p) x then [snd p] else []) l.
Definition fates (tr : list event) (x : sid) : list (pkt * fate) := on x (flat_map fates_of tr).
(** The datagrams that came to the port of a stream *)
Definition arrived (tr : list event) (x : sid) : list pkt :=
  flat_map (fun e => match e with EArrive y k => if sid_eq_dec y x then [k] else [] | _ => [] end) tr.
(** The datagram of the stream that a thread is busy with *)
Definition in_hand (s : st) (x : sid) : list pkt :=
  match wrk s (s_rtcp x) with
  | Hold y _ k | Ready y _ k => if sid_eq_dec y x then [k] else []
  | _ => []
  end.

Definition count {A} (f : A -> bool) (l : list A) : Z := Z.of_nat (length (filter f l)).
Definition relayed (p : pkt * fate) : bool := match snd p with Relayed _ => true | _ => false end.
Definition isdropped (p : pkt * fate) : bool := match snd p with Dropped _ => true | _ => false end.
Definition isignored (p : pkt * fate) : bool := match snd p with Ignored => true | _ => false end.
Definition flushed (p : pkt * fate) : bool := match snd p with Flushed => true | _ => false end.
Definition taken (p : pkt * fate) : bool := match snd p with Taken _ => true | _ => false end.
(** Fates of the packets of all streams *)
Definition all_fates (tr : list event) : list (pkt * fate) := map snd (flat_map fates_of tr).
(** The packets the threads are busy with *)
Definition all_in_hand (s : st) : Z :=
  let f p := match p with Hold _ _ _ | Ready _ _ _ => 1 | _ => 0 end in f (wrk s false) + f (wrk s true).

(** Packets that the analyser saw: all that got past the processors in front of it *)
Definition analysed (p : pkt * fate) : bool :=
  match snd p with
  | Relayed _ | Dropped Playing | Dropped Late | Dropped NoAddr | Taken Late => true
  | _ => false
  end.
(** ... of which one may still be on its way out *)
Definition on_way_out (s : st) (x : sid) : Z :=
  match wrk s (s_rtcp x) with Ready y _ _ => if sid_eq_dec y x then 1 else 0 | _ => 0 end.
(** Packets that came through to the relay *)
Definition reached_relay (p : pkt * fate) : bool :=
  match snd p with Relayed _ | Dropped NoAddr => true | _ => false end.

(** The address to which what leaves from the stream goes, as far as the proxy knows it *)
Definition known_address (s : st) (x : sid) : option sockaddr := if skt s x then l_rem (str s x) else None.

(** Counters have 64 bits *)
Definition M64 : Z := 2 ^ 64.

(** The packets of both streams of a pipe *)
Definition pipe_fates (tr : list event) (c : nat) (b : bool) : list (pkt * fate) :=
  fates tr (mkSid c b false) ++ fates tr (mkSid c b true).

(** Packets that were read or thrown away and not relayed or taken *)
Definition discarded (p : pkt * fate) : bool := isdropped p || isignored p || flushed p.

(** Packets read from a socket for the chain *)
Definition readf (p : pkt * fate) : bool := relayed p || isdropped p || isignored p || taken p.

(** How often the timeout of a stream was restarted *)
Definition restarts (ev : list event) (y : sid) : Z := count (fun e => match e with ETtl x => if sid_eq_dec x y then true else false | _ => false end) ev.

(** Packets that a thread took through the chain *)
Definition handled (b : bool) (p : sid * (pkt * fate)) : bool :=
  Bool.eqb (s_rtcp (fst p)) b && match snd (snd p) with Relayed _ | Dropped _ | Taken _ => true | _ => false end.
(** The thread does not begin with another stream *)
Definition no_turn (b : bool) (o : op) : Prop := match o with Turn x => s_rtcp x <> b | _ => True end.

(** The number of packets of a party the session saw *)
Definition seen (tr : list event) (x : sid) : Z := count analysed (fates tr x) mod M64.
