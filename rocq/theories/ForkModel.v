(* Copying the packets of one session into another one (the C sub-command of
   U): /repo/src/commands/rpcpv1_ul_subc_copy.c, with the chain of packet
   processors of every stream (/repo/src/advanced/pproc_manager.c).

   Simplifications
   - The threads are not modelled here (see PprocModel.v): chains do not
     change while a packet is processed.
   - Of the processors that every stream has, only the recorder
     (rtpp_proc_async.c:351) and the one that relays (rtpp_proc_async.c:342)
     are kept; the analyzer, the resizer and those of modules come before or
     pass the packet on.
   - What the relaying processor does with the packet is an event.
   - A session is a number; looking it up (lines 180-184) succeeds.  Memory for
     the state of the copy is there; how many of the eight registrations
     succeed is an argument.  Memory is there when a processor is removed.
   - A counter of the debug build that stops the program at the sixteenth level
     of recursion (pproc_manager.c:197-200) is left out. *)
From Coq Require Import List Arith Lia Bool.
Import ListNotations.

(* a stream: session, is it RTCP, which of the two *)
Definition stream := (nat * bool * bool)%type.
Definition stream_eqb (a b : stream) : bool :=
  let '(s, r, i) := a in let '(s', r', i') := b in
  (s =? s') && Bool.eqb r r' && Bool.eqb i i'.

(* the addresses used as keys: src_key and tgt_key of one of the four parts of
   a copy, lines 68-74 *)
Inductive key := KBase | KFwd (n : nat) (i j tgt : bool).
Definition key_eqb (a b : key) : bool :=
  match a, b with
  | KBase, KBase => true
  | KFwd n i j t, KFwd n' i' j' t' =>
      (n =? n') && Bool.eqb i i' && Bool.eqb j j' && Bool.eqb t t'
  | _, _ => false
  end.

(* what a processor does: ul_subc_drop_packets (81-86), ul_subc_copy_enqueue
   (88-110), record_packet, relay_packet *)
Inductive act := ADrop | ACopy (tin tout : stream) | ARecord | ARelay.
Record proc := mkproc { p_ord : nat; p_key : key; p_act : act }.

(* advanced/packet_processor.h:52-64 *)
Definition ORD_PLAY := 7.
Definition ORD_WITNESS := 8.
Definition ORD_RELAY := 12.

Definition base : list proc :=
  [mkproc ORD_WITNESS KBase ARecord; mkproc ORD_RELAY KBase ARelay].

(* pproc_manager.c:151-161: after the processors of the same order *)
Fixpoint insert (p : proc) (l : list proc) : list proc :=
  match l with
  | [] => [p]
  | q :: r => if p_ord p <? p_ord q then p :: q :: r else q :: insert p r
  end.
(* pproc_manager.c:268-283 *)
Fixpoint remove (k : key) (l : list proc) : option (list proc) :=
  match l with
  | [] => None
  | q :: r => if key_eqb (p_key q) k then Some r
              else option_map (cons q) (remove k r)
  end.

(* the chains of all streams *)
Definition chains := stream -> list proc.
Definition reg (m : chains) (y : stream) (p : proc) : chains :=
  fun x => if stream_eqb x y then insert p (m x) else m x.
(* None: abort(), line 297 *)
Definition unreg (m : chains) (y : stream) (k : key) : option chains :=
  match remove k (m y) with
  | Some l => Some (fun x => if stream_eqb x y then l else m x)
  | None => None
  end.

(* a copy: source session and stream, target session and stream *)
Record copy := mkcopy { c_src : nat; c_sidx : bool; c_tgt : nat; c_tidx : bool }.

(* lines 203-218: the source of part [i][j], where its packets are injected
   and where they go out *)
Definition src_of (c : copy) (i j : bool) : stream := (c_src c, i, xorb (c_sidx c) j).
Definition tin_of (c : copy) (i j : bool) : stream := (c_tgt c, i, xorb (c_tidx c) (negb j)).
Definition tout_of (c : copy) (i j : bool) : stream := (c_tgt c, i, xorb (c_tidx c) j).

Definition parts : list (bool * bool) :=
  [(false, false); (false, true); (true, false); (true, true)].

Inductive side := Src | Tgt.
(* the registrations of lines 227-263 in their order *)
Definition regs : list (bool * bool * side) :=
  flat_map (fun '(i, j) => [(i, j, Src); (i, j, Tgt)]) parts.

Definition reg1 (c : copy) (n : nat) (m : chains) (r : bool * bool * side) : chains :=
  let '(i, j, sd) := r in
  match sd with
  | Src => reg m (src_of c i j)
             (mkproc ORD_WITNESS (KFwd n i j false) (ACopy (tin_of c i j) (tout_of c i j)))
  | Tgt => reg m (tout_of c i j) (mkproc ORD_PLAY (KFwd n i j true) ADrop)
  end.

Definition unreg1 (c : copy) (n : nat) (m : option chains) (r : bool * bool * side) : option chains :=
  match m with
  | None => None
  | Some m =>
      let '(i, j, sd) := r in
      match sd with
      | Src => unreg m (src_of c i j) (KFwd n i j false)
      | Tgt => unreg m (tout_of c i j) (KFwd n i j true)
      end
  end.

(* lines 112-127 *)
Definition uninstall (c : copy) (n : nat) (m : chains) : option chains :=
  fold_left (unreg1 c n) regs (Some m).

(* the chains, the copies in force with the identity of their state, and the
   next identity *)
Record st := mkst { ch : chains; cps : list (nat * copy); next : nat }.
Definition init : st := mkst (fun _ => base) [] 0.

(* lines 157-284.  [ok]: how many registrations succeed. *)
Definition do_copy (s : st) (c : copy) (ok : nat) : option (st * bool) :=
  if c_src c =? c_tgt c then Some (s, false)
  else if ok <? length regs then
    (* e3 *)
    match uninstall c (next s) (fold_left (reg1 c (next s)) (firstn ok regs) (ch s)) with
    | Some m => Some (mkst m (cps s) (S (next s)), false)
    | None => None
    end
  else Some (mkst (fold_left (reg1 c (next s)) regs (ch s)) (cps s ++ [(next s, c)]) (S (next s)), true).

(* the end of a session: lines 129-134 for every copy into it *)
Definition do_end (s : st) (t : nat) : option st :=
  match fold_left (fun m '(n, c) =>
                     if c_tgt c =? t
                     then match m with Some m => uninstall c n m | None => None end
                     else m) (cps s) (Some (ch s)) with
  | Some m => Some (mkst m (filter (fun '(n, c) => negb (c_tgt c =? t)) (cps s)) (next s))
  | None => None
  end.

Inductive op := FCopy (c : copy) (ok : nat) | FEnd (t : nat).
Definition step (s : st) (o : op) : option st :=
  match o with
  | FCopy c ok => option_map fst (do_copy s c ok)
  | FEnd t => do_end s t
  end.
Fixpoint run (s : st) (os : list op) : option st :=
  match os with
  | [] => Some s
  | o :: r => match step s o with Some s' => run s' r | None => None end
  end.

Inductive event := EvDrop (x : stream) | EvRecord (x : stream) | EvRelay (x out : stream).

(* pproc_manager.c:180-235 with the calls of lines 88-110 of the copy.  The
   recursion of the code has no bound: [fuel] is the depth of calls allowed
   here, and None means that it was not enough. *)
Fixpoint handleat (fuel : nat) (m : chains) (x out : stream) (startat : nat) : option (list event) :=
  match fuel with
  | O => None
  | S f =>
      (fix go (l : list proc) : option (list event) :=
         match l with
         | [] => Some []
         | p :: r =>
             if (0 <? startat) && (p_ord p <? startat) then go r
             else match p_act p with
                  | ADrop => Some [EvDrop x]
                  | ACopy tin tout =>
                      match handleat f m tin tout (ORD_PLAY + 1) with
                      | None => None
                      | Some e => option_map (app e) (go r)
                      end
                  | ARecord => option_map (cons (EvRecord x)) (go r)
                  | ARelay => Some [EvRelay x out]
                  end
         end) (m x)
  end.

(* A packet from the network (rtpp_proc.c:99), a packet of the player
   (rtpp_proc_servers.c:145) *)
Definition from_network (fuel : nat) (m : chains) (x out : stream) := handleat fuel m x out 0.
Definition from_player (fuel : nat) (m : chains) (x out : stream) := handleat fuel m x out (ORD_PLAY + 1).
