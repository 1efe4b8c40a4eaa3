(* What copying means, without chains of processors. *)
From Coq Require Import List Arith Bool.
From Verif Require Import ForkModel.
Import ListNotations.

(* The copies in force after a series of commands: those that were accepted,
   until their target session ends. *)
Fixpoint in_force (acc : list copy) (os : list op) : list copy :=
  match os with
  | [] => acc
  | FCopy c _ :: r => in_force (if c_src c =? c_tgt c then acc else acc ++ [c]) r
  | FEnd t :: r => in_force (filter (fun c => negb (c_tgt c =? t)) acc) r
  end.

(* every registration succeeds *)
Definition mem_ok (o : op) : Prop := match o with FCopy _ ok => 8 <= ok | FEnd _ => True end.

Definition sess_of (x : stream) : nat := fst (fst x).

(* session [t] gets a copy of the packets of session [s] *)
Definition copied (A : list copy) (s t : nat) : Prop :=
  exists c, In c A /\ c_src c = s /\ c_tgt c = t.

(* where the packets of stream [x] are copied to by [c], and where the copy
   goes out: a packet received on a stream of the source is treated as if it
   came in on the stream of the target that faces the other one *)
Definition goes_to (c : copy) (x : stream) : stream * stream :=
  let '(s, r, b) := x in
  let j := xorb (c_sidx c) b in
  ((c_tgt c, r, xorb (c_tidx c) (negb j)), (c_tgt c, r, xorb (c_tidx c) j)).

(* the packet is recorded, copied to each session that copies this one, in the
   order of the commands, and sent *)
Fixpoint spread (fuel : nat) (A : list copy) (x out : stream) : option (list event) :=
  match fuel with
  | O => None
  | S f =>
      match fold_left (fun acc c =>
              if c_src c =? sess_of x then
                match acc, spread f A (fst (goes_to c x)) (snd (goes_to c x)) with
                | Some a, Some e => Some (a ++ e)
                | _, _ => None
                end
              else acc) A (Some [EvRecord x]) with
      | Some a => Some (a ++ [EvRelay x out])
      | None => None
      end
  end.
