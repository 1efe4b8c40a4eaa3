(** C16: a first-in first-out queue, as seen from the results of the calls. *)
From Verif Require Import Base QueueModel.

(** [fifo tr m c]: the results in [tr] are those of a plain list that starts empty and without a limit;
    at the end it is [c] and the limit is [m]. *)
Inductive fifo : list (op * obs) -> option Z -> list Z -> Prop :=
| f_nil : fifo [] None []
| f_put tr m c x s p : fifo tr m c -> (forall k, m = Some k -> Z.of_nat (length c) < k) ->
    fifo (tr ++ [(Put x s p, OPut x true)]) m (c ++ [x])
| f_refuse tr k c x s p : fifo tr (Some k) c -> k <= Z.of_nat (length c) ->
    fifo (tr ++ [(Put x s p, OPut x false)]) (Some k) c
| f_got tr m items rest o n : fifo tr m (items ++ rest) -> items <> [] ->
    (Z.of_nat (length items) = n \/ Z.of_nat (length items) < n /\ rest = []) ->
    fifo (tr ++ [(o, OGot n items)]) m rest
| f_empty tr m o : fifo tr m [] -> fifo (tr ++ [(o, OEmpty)]) m []
| f_sleep tr m o : fifo tr m [] -> fifo (tr ++ [(o, OSleep)]) m []
| f_found tr m l1 x l2 p : fifo tr m (l1 ++ x :: l2) -> p x = true -> (forall y, In y l1 -> p y = false) ->
    fifo (tr ++ [(Match p, OMatch p (Some x))]) m (l1 ++ l2)
| f_none tr m c p : fifo tr m c -> (forall y, In y c -> p y = false) -> fifo (tr ++ [(Match p, OMatch p None)]) m c
| f_len tr m c : fifo tr m c -> fifo (tr ++ [(Len, OLen (Z.of_nat (length c)))]) m c
| f_max tr m c k : fifo tr m c -> fifo (tr ++ [(SetMax k, ONone)]) (if k =? 4294967295 then None else Some k) c
| f_other tr m c o : fifo tr m c -> (forall k, o <> SetMax k) -> fifo (tr ++ [(o, ONone)]) m c.

(** Calls ask for at least one item (and an int's worth), limits are unsigned ints. *)
Definition valid (o : op) : Prop := match o with Get n _ => 1 <= n < 2147483648 | SetMax n => 0 <= n < 4294967296 | _ => True end.
(** All items accepted by the queue, and all items that left it, in order. *)
Definition accepted (tr : list (op * obs)) : list Z := flat_map (fun e => match snd e with OPut x true => [x] | _ => [] end) tr.
Definition delivered (tr : list (op * obs)) : list Z := flat_map (fun e => match snd e with OGot _ l => l | OMatch _ (Some x) => [x] | _ => [] end) tr.
