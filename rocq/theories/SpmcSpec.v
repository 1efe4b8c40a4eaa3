(** A queue of bounded length, one operation at a time. *)
From Verif Require Import Base SpmcModel.

(** The events happen to a list, one after the other *)
Inductive legal (cap : Z) : list Z -> list event -> list Z -> Prop :=
| legal_nil q : legal cap q [] q
| legal_push q vs es q' : zlen (q ++ vs) <= cap -> legal cap (q ++ vs) es q' -> legal cap q (Pushed vs :: es) q'
| legal_space q n es q' : n = cap - zlen q -> legal cap q es q' -> legal cap q (Space n :: es) q'
| legal_pop t vs q es q' : legal cap q es q' -> legal cap (vs ++ q) (Popped t vs :: es) q'
| legal_empty t es q' : legal cap [] es q' -> legal cap [] (Empty t :: es) q'.

(** All that was put in, and all that was taken out, in order *)
Definition puts (es : list event) : list Z := flat_map (fun e => match e with Pushed vs => vs | _ => [] end) es.
Definition gets (es : list event) : list Z := flat_map (fun e => match e with Popped _ vs => vs | _ => [] end) es.

(** The events of a consumer, and what its calls say about them: values were taken, as many as asked for or fewer, and none only if none were asked
    for; or the queue was empty *)
Definition by_consumer (t : nat) (es : list event) : list event :=
  filter (fun e => match e with Popped t' _ | Empty t' => (t' =? t)%nat | _ => false end) es.
Definition explains_pop (p : ccall * list Z) (e : event) : Prop :=
  match e with
  | Popped _ vs => snd p = vs /\ match fst p with TryPop => zlen vs = 1 | PopMany n => zlen vs <= n /\ (0 < n -> vs <> []) end
  | Empty _ => snd p = []
  | _ => False
  end.

(** The values of the first [n] items of a call, and the length of the call *)
Definition values (get : Z -> option Z) (c : pcall) (n : Z) : list Z :=
  match c with
  | TryPush v => if n =? 0 then [] else [v]
  | PushMany vs | PushManyPre vs => firstn (Z.to_nat n) vs
  | PushManyKv ks => flat_map (fun k => match get k with Some v => [v] | None => [] end) (firstn (Z.to_nat n) ks)
  end.
Definition size_of (c : pcall) : Z :=
  match c with TryPush _ => 1 | PushMany vs | PushManyPre vs => zlen vs | PushManyKv ks => zlen ks end.
Definition by_producer (es : list event) : list event :=
  filter (fun e => match e with Pushed _ | Space _ => true | _ => false end) es.
(** The calls of the producer and their results explain what happened: a call with the result [n] put its first [n] items in; if it is
    less than all, so many were free that no more fitted. *)
Inductive explains (get : Z -> option Z) : list (pcall * Z) -> list event -> Prop :=
| ex_nil : explains get [] []
| ex_call cs es c n seen : explains get cs es -> 0 <= n <= size_of c ->
    (seen = [] /\ n = size_of c \/
     exists free, seen = [Space free] /\ zlen (values get c n) <= free /\ (n < size_of c -> zlen (values get c n) = free)) ->
    explains get (cs ++ [(c, n)]) (es ++ seen ++ match values get c n with [] => [] | vs => [Pushed vs] end).

(** Calls that are made: many means at least none *)
Definition sane (a : act) : Prop := match a with CStart _ (PopMany n) => 0 <= n | _ => True end.
Definition power_of_two (cap : Z) : Prop := exists k, 0 <= k /\ cap = 2 ^ k.
(** No call asks for more than the queue holds *)
Definition small (cap : Z) (a : act) : Prop := match a with CStart _ (PopMany n) => n <= cap | _ => True end.
