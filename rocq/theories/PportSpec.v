(** What the events of a packet port say about packets. *)
From Verif Require Import Base PportModel.

(** Packets from the application: accepted; those that left the queue, in order; taken by the worker; dealt with by the worker *)
Definition accepted (es : list event) : list pkt := flat_map (fun e => match e with Accepted p => [p] | _ => [] end) es.
Definition left_out (es : list event) : list pkt := flat_map (fun e => match e with DropOut p | Took p | FreeOut p => [p] | _ => [] end) es.
Definition took (es : list event) : list pkt := flat_map (fun e => match e with Took p => [p] | _ => [] end) es.
Definition dealt (es : list event) : list pkt := flat_map (fun e => match e with Handled p _ | NoStream p => [p] | _ => [] end) es.
(** Packets to the application: accepted from the engine; those for which it is decided whether they enter the queue; those that entered it; those that left it *)
Definition sent (es : list event) : list pkt := flat_map (fun e => match e with Sent p => [p] | _ => [] end) es.
Definition settled (es : list event) : list pkt := flat_map (fun e => match e with Entered p | Undelivered p | FreeSent p => [p] | _ => [] end) es.
Definition entered (es : list event) : list pkt := flat_map (fun e => match e with Entered p => [p] | _ => [] end) es.
Definition left_in (es : list event) : list pkt := flat_map (fun e => match e with DropIn p | Got p | FreeIn p => [p] | _ => [] end) es.
(** The stream of a port *)
Definition registered (es : list event) (port : Z) : option Z :=
  fold_left (fun r e => match e with
                        | Registered q x => if port =? q then Some x else r
                        | Unregistered q => if port =? q then None else r
                        | _ => r end) es None.

(** What the worker has in hand: packets taken and not dealt with, work items taken and not settled *)
Definition hand (s : st) : list pkt := match wrk s with KHandle ps => ps | _ => [] end.
Definition work (s : st) : list pwi := match wrk s with KSee r _ _ | KPut r _ _ _ | KMake r _ _ => r | _ => [] end.
(** The worker has nothing to do *)
Definition resting (s : st) : Prop := wrk s = KWait /\ pq s = [].

(** Numbers of ports given *)
Definition run_alloc (ts : list nat) : ports := fold_left alloc_step ts ports0.
