(** Lines of a byte stream (C37). *)
From Verif Require Import Base CstreamModel.

(** [ls]: the complete lines of [bytes], [tail]: what follows the last newline. *)
Definition lines_of (bytes : list Z) (ls : list (list Z)) (tail : list Z) : Prop :=
  bytes = concat (map (fun l => l ++ [10]) ls) ++ tail /\ Forall (fun l => ~ In 10 l) ls /\ ~ In 10 tail.

(** Everything that arrived. *)
Definition arrived (es : list event) : list Z := concat (map (fun e => match e with Arrive bs => bs | Serve _ => [] end) es).
