(* What a user of the recording commands relies on. *)
From Coq Require Import List Arith Bool.
From Verif Require Import RrcModel.
Import ListNotations.

(* how many of the four streams of a session have the recorder [k] *)
Definition holds (v : option nat) (k : nat) : nat :=
  match v with Some j => if j =? k then 1 else 0 | None => 0 end.
Definition held_in (se : sess) (k : nat) : nat :=
  holds (rtp0 se) k + holds (rtp1 se) k + holds (rtcp0 se) k + holds (rtcp1 se) k.
Fixpoint holders (l : list sess) (k : nat) : nat :=
  match l with [] => 0 | se :: r => held_in se k + holders r k end.

Definition present (v : option nat) : bool := match v with Some _ => true | None => false end.

(* where stream [idx] of session [i] is recorded to, if it is *)
Definition recorded_to (s : st) (i : nat) (rtcp idx : bool) : option place :=
  match getr s i rtcp idx with
  | Some k => option_map r_place (nth_error (recs s) k)
  | None => None
  end.

(* Where the recording of one direction belongs: to the target of the command when it names one, and
   otherwise to a file named after call and tag, with the direction in its name unless both
   directions go into one file. *)
Definition belongs (call tag : nat) (t : target) (idx one rtcp : bool) : place :=
  let k := if one then KBoth else if rtcp then KRtcp else KRtp in
  match t with
  | TUdp n => PUdp n k
  | TFile n => PFile n k
  | TNone => PAuto call tag (if one then None else Some idx) k
  end.
