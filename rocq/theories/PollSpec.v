(* What the callers do, and what it means for an operation not to run out of
   memory. *)
From Coq Require Import List Arith Bool.
From Verif Require Import PollModel.
Import ListNotations.

(* The sockets of the streams that have one, kept without the log: what the
   polled sockets ought to be. *)
Definition has (m : list (nat * nat)) (u : nat) : Prop := In u (map fst m).

(* The callers' side of the contract.
   - A socket given to a stream is new: nothing holds a reference to it yet
     (it was created by the command just before), so it is none of those the
     log or the table still holds.
   - [append] is for a stream without a socket (rtpp_session.c:212,
     rpcpv1_ul.c:722-729).
   - the polling thread does one thing at a time: it replays all that it took
     before it synchronises again. *)
Definition legal (s : st) (o : op) : Prop :=
  match o with
  | PAppend u k _ _ => ~ has (skts s) u /\ ~ In k (held s)
  | PUpdate u k _ _ => ~ In k (held s)
  | PRemove _ _ _ => True
  | PSync _ => cur s = []
  | PReplay => True
  end.

Fixpoint legals (s : st) (os : list op) : Prop :=
  match os with
  | [] => True
  | o :: r => legal s o /\ match step s o with Ok s' => legals s' r | _ => True end
  end.

(* Memory is there when a socket is removed or the table must grow; it may be
   short when a socket is added or replaced. *)
Definition enough (o : op) : Prop :=
  match o with
  | PRemove _ ok other => ok = true /\ other = true
  | PSync ok => ok = true
  | _ => True
  end.

Definition not_sync (o : op) : Prop :=
  match o with PSync _ => False | _ => True end.
