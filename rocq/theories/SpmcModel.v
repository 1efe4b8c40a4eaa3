(** Model of the queue with one producer and any number of consumers (external/RTQueue/src/SPMCQueue.c), access by access to its shared
    members, for every schedule. Values (pointers) are numbers. The 64-bit indices are unbounded here: they are the same for less
    than 2^64 items. Steps are sequentially consistent. *)
From Verif Require Import Base.

(** Calls of the producer and of the consumers *)
Inductive pcall := TryPush (v : Z) | PushMany (vs : list Z) | PushManyPre (vs : list Z) | PushManyKv (ks : list Z).
Inductive ccall := TryPop | PopMany (n : Z).

(** What is seen at the access that decides a call: values are in the queue; so many places are free; values are taken; it is empty *)
Inductive event := Pushed (vs : list Z) | Space (n : Z) | Popped (t : nat) (vs : list Z) | Empty (t : nat).

(** Where the producer is: at line 169 (205, 240, 150) about to load the index of the readers; writing to the slots, with the writes that
    remain, what is written and the result *)
Inductive ppc := PIdle | PRefresh (c : pcall) | PWrite (c : pcall) (todo : list (Z * Z)) (vs : list Z) (ret : Z).
(** Where a consumer is, lines 272-287 and 297-324: about to load the index of the readers; about to load the cached index of the writer; to
    load the index of the writer; to store it in the cache; reading slots (so many are read); at the compare-and-exchange *)
Inductive cpc :=
| CIdle | CLoadR (c : ccall) | CLoadC (c : ccall) (r : Z) | CLoadW (c : ccall) (r : Z) | CStoreC (c : ccall) (r w : Z)
| CRead (c : ccall) (r new j : Z) (acc : list Z) | CCas (c : ccall) (r new : Z) (acc : list Z).

(** struct SPMCQueue, lines 38-46, the threads, the results so far, whether an assertion failed and whether
    an access was outside of the slots *)
Record st := mkSt { widx : Z; ridx : Z; rcache : Z; wcache : Z; slots : Z -> Z; prod : ppc; cons : nat -> cpc;
  pres : list (pcall * Z); cres : nat -> list (ccall * list Z); broken : bool; oob : bool }.

(** create_queue, lines 80-99 *)
Definition init : st := mkSt 0 0 0 0 (fun _ => 0) PIdle (fun _ => CIdle) [] (fun _ => []) false false.

Definition zlen {A} (l : list A) : Z := Z.of_nat (length l).
Definition fset {A} (f : Z -> A) (i : Z) (x : A) : Z -> A := fun j => if j =? i then x else f j.
Definition tset {A} (f : nat -> A) (i : nat) (x : A) : nat -> A := fun j => if (j =? i)%nat then x else f j.

Definition set_prod (s : st) (p : ppc) : st :=
  mkSt (widx s) (ridx s) (rcache s) (wcache s) (slots s) p (cons s) (pres s) (cres s) (broken s) (oob s).
Definition set_cons (s : st) (t : nat) (p : cpc) : st :=
  mkSt (widx s) (ridx s) (rcache s) (wcache s) (slots s) (prod s) (tset (cons s) t p) (pres s) (cres s) (broken s) (oob s).
Definition p_return (s : st) (c : pcall) (r : Z) : st :=
  mkSt (widx s) (ridx s) (rcache s) (wcache s) (slots s) PIdle (cons s) (pres s ++ [(c, r)]) (cres s) (broken s) (oob s).
Definition c_return (s : st) (t : nat) (c : ccall) (vs : list Z) : st :=
  mkSt (widx s) (ridx s) (rcache s) (wcache s) (slots s) (prod s) (tset (cons s) t CIdle) (pres s)
    (tset (cres s) t (cres s t ++ [(c, vs)])) (broken s) (oob s).

Section queue.
  (** Capacity, a power of two (asserted on line 86), and get_value of the callers of try_push_many_kv *)
  Context (cap : Z) (get : Z -> option Z).

  (** SLOT_IDX, lines 128-129 *)
  Definition slot (i : Z) : Z := Z.land i (cap - 1).

  (** slots[0 .. capacity-1] *)
  Definition outside (i : Z) : bool := negb ((0 <=? i) && (i <? cap)).

  Fixpoint place (f : Z -> Z) (j : Z) (vs : list Z) : list (Z * Z) :=
    match vs with [] => [] | v :: t => (f j, v) :: place f (j + 1) t end.
  (** The two memcpy of lines 184-190 *)
  Definition at_copy (start j : Z) : Z := if j <? cap - start then start + j else j - (cap - start).
  (** SLOT_AT(queue, start + i), lines 223, 254 *)
  Definition at_slot (start j : Z) : Z := slot (start + j).

  (** The loop of lines 246-258: the values and the number of keys consumed *)
  Fixpoint kv_take (avail : nat) (ks : list Z) : list Z * Z :=
    match ks with
    | [] => ([], 0)
    | k :: t => match avail with
                | O => ([], 0)
                | S a => match get k with
                         | Some v => let '(vs, n) := kv_take a t in (v :: vs, n + 1)
                         | None => let '(vs, n) := kv_take avail t in (vs, n + 1)
                         end
                end
    end.

  (** Room for all, by the cached index (lines 144, 168, 204, 239) *)
  Definition enough (s : st) (c : pcall) : bool :=
    match c with
    | TryPush _ => widx s + 1 - rcache s <=? cap
    | PushMany vs | PushManyPre vs => zlen vs <=? cap - (widx s - rcache s)
    | PushManyKv ks => zlen ks <=? cap - (widx s - rcache s)
    end.
  (** What is written, where, and the result: lines 144-146, 152-154, 173-192, 209-226, 243-262 *)
  Definition plan (s : st) (c : pcall) : list (Z * Z) * list Z * Z :=
    let avail := cap - (widx s - rcache s) in
    let start := slot (widx s) in
    match c with
    | TryPush v => if widx s + 1 - rcache s <=? cap then ([(start, v)], [v], 1) else ([], [], 0)
    | PushMany vs => let vs := firstn (Z.to_nat avail) vs in (place (at_copy start) 0 vs, vs, zlen vs)
    | PushManyPre vs => let vs := firstn (Z.to_nat avail) vs in (place (at_slot start) 0 vs, vs, zlen vs)
    | PushManyKv ks => let '(vs, n) := kv_take (Z.to_nat avail) ks in (place (at_slot start) 0 vs, vs, n)
    end.
  Definition go (s : st) (c : pcall) : st :=
    let '(todo, vs, ret) := plan s c in
    match vs with [] => p_return s c ret | _ => set_prod s (PWrite c todo vs ret) end.

  (** The index of the writer and the cached one of the readers belong to the producer *)
  Definition p_start (s : st) (c : pcall) : st :=
    match prod s with PIdle => if enough s c then go s c else set_prod s (PRefresh c) | _ => s end.
  Definition p_step (s : st) : st * list event :=
    match prod s with
    | PIdle => (s, [])
    | PRefresh c =>
        let s1 := mkSt (widx s) (ridx s) (ridx s) (wcache s) (slots s) (prod s) (cons s) (pres s) (cres s) (broken s) (oob s) in
        (go s1 c, [Space (cap - (widx s - ridx s))])
    | PWrite c ((i, v) :: todo) vs ret =>
        (mkSt (widx s) (ridx s) (rcache s) (wcache s) (fset (slots s) i v) (PWrite c todo vs ret) (cons s) (pres s) (cres s) (broken s)
           (oob s || outside i), [])
    | PWrite c [] vs ret =>
        (p_return (mkSt (widx s + zlen vs) (ridx s) (rcache s) (wcache s) (slots s) (prod s) (cons s) (pres s) (cres s) (broken s) (oob s)) c ret, [Pushed vs])
    end.

  (** The index after the values, lines 285 and 310-312 *)
  Definition newidx (c : ccall) (r w : Z) : Z :=
    match c with TryPop => r + 1 | PopMany n => if r + n >? w then w else r + n end.
  (** Where the [j]-th value is read, lines 286 and 313-323 *)
  Definition at_read (c : ccall) (r j : Z) : Z :=
    match c with TryPop => slot r | PopMany _ => at_copy (slot r) j end.
  Definition start_read (s : st) (t : nat) (c : ccall) (r w : Z) : st := set_cons s t (CRead c r (newidx c r w) 0 []).

  Definition c_start (s : st) (t : nat) (c : ccall) : st :=
    match cons s t with CIdle => set_cons s t (CLoadR c) | _ => s end.
  (** try_pop and try_pop_many, lines 267-326. [weak]: atomic_compare_exchange_weak (lines 112-115) fails without a reason *)
  Definition c_step (s : st) (t : nat) (weak : bool) : st * list event :=
    match cons s t with
    | CIdle => (s, [])
    | CLoadR c => (set_cons s t (CLoadC c (ridx s)), [])
    | CLoadC c r => (if r >=? wcache s then set_cons s t (CLoadW c r) else start_read s t c r (wcache s), [])
    | CLoadW c r => (set_cons s t (CStoreC c r (widx s)), if r =? widx s then [Empty t] else [])
    | CStoreC c r w =>
        let s1 := mkSt (widx s) (ridx s) (rcache s) w (slots s) (prod s) (cons s) (pres s) (cres s) (broken s) (oob s) in
        (if r =? w then c_return s1 t c []
         else if r <? w then start_read s1 t c r w
         else mkSt (widx s) (ridx s) (rcache s) w (slots s) (prod s) (cons s) (pres s) (cres s) true (oob s), [])
    | CRead c r new j acc =>
        if j <? new - r then 
          (set_cons (mkSt (widx s) (ridx s) (rcache s) (wcache s) (slots s) (prod s) (cons s) (pres s) (cres s) (broken s) (oob s || outside (at_read c r j)))
             t (CRead c r new (j + 1) (acc ++ [slots s (at_read c r j)])), [])
        else (set_cons s t (CCas c r new acc), [])
    | CCas c r new acc =>
        if weak || negb (ridx s =? r) then (set_cons s t (CLoadR c), [])
        else (c_return (mkSt (widx s) new (rcache s) (wcache s) (slots s) (prod s) (cons s) (pres s) (cres s) (broken s) (oob s)) t c acc, [Popped t acc])
    end.

  (** Schedules *)
  Inductive act := PStart (c : pcall) | PStep | CStart (t : nat) (c : ccall) | CStep (t : nat) (weak : bool).
  Definition step (s : st) (a : act) : st * list event :=
    match a with
    | PStart c => (p_start s c, [])
    | PStep => p_step s
    | CStart t c => (c_start s t c, [])
    | CStep t weak => c_step s t weak
    end.
  Fixpoint run (s : st) (acts : list act) : st * list event :=
    match acts with
    | [] => (s, [])
    | a :: rest => let '(s1, e1) := step s a in let '(s2, e2) := run s1 rest in (s2, e1 ++ e2)
    end.
End queue.
