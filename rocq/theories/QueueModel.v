(** Model of the work queue: src/rtpp_queue.c:51-529, src/rtpp_queue.h:35-71. An item is a number. The linked list behind
    head/tail is a list; [q_len] is the separate field length. Every operation runs under the mutex
    of the queue, so an operation is one step, except that a consumer can sleep on the condition
    variable; the consumers that sleep and those that have been woken but have not run yet are part of
    the state. Sums of lengths are taken to fit an int (fewer than 2^31 items in memory). *)
From Verif Require Import Base.

(** circ_buf_t, src/rtpp_queue.c:51-56 *)
Record cbuf := mkCb { c_len : Z; c_head : Z; c_tail : Z; c_buf : list Z }.

(** circ_buf_isempty, src/rtpp_queue.c:58-63 *)
Definition cb_isempty (c : cbuf) : bool := c_head c =? c_tail c.

(** circ_buf_push, src/rtpp_queue.c:65-83; a store outside of the buffer changes nothing here and is
    excluded by the invariant *)
Definition cb_push (c : cbuf) (x : Z) : option cbuf :=
  let next := u32 (c_head c + 1) in
  let next := if next =? c_len c then 0 else next in
  if next =? c_tail c then None
  else Some (mkCb (c_len c) next (c_tail c) (upd (c_buf c) (Z.to_nat (c_head c)) x)).

(** memcpy from the buffer; [None]: out of bounds *)
Definition slice (b : list Z) (from n : Z) : option (list Z) :=
  if (0 <=? from) && (from + n <=? Z.of_nat (length b)) then Some (firstn (Z.to_nat n) (skipn (Z.to_nat from) b)) else None.

(** circ_buf_popmany, src/rtpp_queue.c:85-125; [None]: out of bounds or out of fuel *)
Fixpoint cb_popmany (fuel : nat) (c : cbuf) (howmany rval : Z) : option (cbuf * list Z) :=
  match fuel with
  | O => None
  | S fuel =>
      if cb_isempty c then Some (c, [])
      else
        let l0 := u32 (c_tail c + howmany - rval) in
        let '(last, next) :=
          if c_head c <? c_tail c then
            if c_len c <=? l0 then (c_len c, 0) else (l0, l0)
          else if c_head c <? l0 then (c_head c, c_head c) else (l0, l0) in
        let copyn := u32 (last - c_tail c) in
        match slice (c_buf c) (c_tail c) copyn with
        | None => None
        | Some d =>
            let c' := mkCb (c_len c) (c_head c) next (c_buf c) in
            let rval := u32 (rval + copyn) in
            if rval =? howmany then Some (c', d)
            else match cb_popmany fuel c' howmany rval with
                 | Some (c'', d') => Some (c'', d ++ d')
                 | None => None
                 end
        end
  end.

(** lines 135-139, 164-168, 197-201: how many items *)
Definition cb_clen (c : cbuf) : Z :=
  if c_head c <? c_tail c then u32 (u32 (c_head c + c_len c) - c_tail c) else u32 (c_head c - c_tail c).
(** lines 143-145, 172-174 *)
Definition cb_idx (c : cbuf) (off : Z) : Z :=
  let i := u32 (c_tail c + off) in if c_len c <=? i then u32 (i - c_len c) else i.

(** circ_buf_peek, src/rtpp_queue.c:127-153 *)
Definition cb_peek (c : cbuf) (off : Z) : option Z :=
  if cb_isempty c then None
  else if cb_clen c <=? off then None
  else nth_error (c_buf c) (Z.to_nat (cb_idx c off)).

(** circ_buf_replace, src/rtpp_queue.c:155-186 (the old item is not used by the only caller) *)
Definition cb_replace (c : cbuf) (off x : Z) : option cbuf :=
  if cb_isempty c then None
  else if cb_clen c <=? off then None
  else Some (mkCb (c_len c) (c_head c) (c_tail c) (upd (c_buf c) (Z.to_nat (cb_idx c off)) x)).

(** the loop of circ_buf_remove, lines 205-208; [None]: an assertion fails *)
Fixpoint cb_shift (c : cbuf) (off : nat) : option cbuf :=
  match off with
  | O => Some c
  | S k => match cb_peek c (Z.of_nat k) with
           | None => None
           | Some d => match cb_replace c (Z.of_nat off) d with
                       | None => None
                       | Some c' => cb_shift c' k
                       end
           end
  end.

(** circ_buf_remove, src/rtpp_queue.c:188-217; [None]: an assertion fails, here or in the caller *)
Definition cb_remove (c : cbuf) (off : nat) : option cbuf :=
  if cb_isempty c then None
  else if cb_clen c <=? Z.of_nat off then None
  else match cb_shift c off with
       | None => None
       | Some c => let t := u32 (c_tail c + 1) in
                   Some (mkCb (c_len c) (c_head c) (if t =? c_len c then 0 else t) (c_buf c))
       end.

(** struct rtpp_queue, src/rtpp_queue.c:219-230 *)
Record queue := mkQ { q_list : list Z; q_len : Z; q_qlen : Z; q_mlen : Z; q_cb : cbuf }.

(** rtpp_queue_init, src/rtpp_queue.c:232-280 *)
Definition q_init (capacity : Z) : queue :=
  let n := u32 (capacity + 1) in
  mkQ [] 0 1 (u32 (-1)) (mkCb n 0 0 (repeat 0 (Z.to_nat n))).

(** rtpp_queue_getclen, src/rtpp_queue.c:306-319 *)
Definition q_clen (q : queue) : Z := q_len q + cb_clen (q_cb q).

(** the loop of rtpp_queue_extract_items, lines 331-339: items, j, the rest *)
Fixpoint list_pop (l : list Z) (n : nat) : list Z * Z * list Z :=
  match n, l with
  | O, _ => ([], 0, l)
  | S n, x :: t => match t with
                   | [] => ([x], 1, [])
                   | _ => let '(d, j, r) := list_pop t n in (x :: d, j + 1, r)
                   end
  | S _, [] => ([], 0, [])
  end.

(** rtpp_queue_extract_items, src/rtpp_queue.c:321-343 *)
Definition q_extract (q : queue) (ilen : Z) : option (queue * list Z) :=
  match cb_popmany 3 (q_cb q) ilen 0 with
  | None => None
  | Some (c, d) =>
      let i := Z.of_nat (length d) in
      if (i =? ilen) || (q_len q =? 0) then Some (mkQ (q_list q) (q_len q) (q_qlen q) (q_mlen q) c, d)
      else let '(d', j, r) := list_pop (q_list q) (Z.to_nat (ilen - i)) in
           Some (mkQ r (q_len q - j) (q_qlen q) (q_mlen q) c, d ++ d')
  end.

(** rtpp_queue_put_item, src/rtpp_queue.c:357-387: the queue, accepted, whether it signals; [sgnl]: a signal item *)
Definition q_put (q : queue) (x : Z) (sgnl : bool) : queue * bool * bool :=
  if negb (q_mlen q =? u32 (-1)) && (q_mlen q <=? q_clen q) then (q, false, false)
  else
    let append := mkQ (q_list q ++ [x]) (q_len q + 1) (q_qlen q) (q_mlen q) (q_cb q) in
    let q' := if 0 <? q_len q then append
              else match cb_push (q_cb q) x with
                   | Some c => mkQ (q_list q) (q_len q) (q_qlen q) (q_mlen q) c
                   | None => append
                   end in
    (q', true, (q_qlen q =? 1) || ((1 <? q_qlen q) && (q_clen q' mod q_qlen q =? 0)) || sgnl).

(** rtpp_queue_get_first_matching, src/rtpp_queue.c:503-529; the scan of the circular buffer *)
Fixpoint cb_scan (n : nat) (c : cbuf) (i : nat) (p : Z -> bool) : option (nat * Z) :=
  match n with
  | O => None
  | S n => match cb_peek c (Z.of_nat i) with
           | None => None
           | Some x => if p x then Some (i, x) else cb_scan n c (S i) p
           end
  end.
(** the scan of the list with RTPPQ_REMOVE_AFTER *)
Fixpoint list_remove (l : list Z) (p : Z -> bool) : option (Z * list Z) :=
  match l with
  | [] => None
  | x :: t => if p x then Some (x, t)
              else match list_remove t p with Some (y, r) => Some (y, x :: r) | None => None end
  end.
(** outer [None]: an assertion fails *)
Definition q_match (q : queue) (p : Z -> bool) : option (queue * option Z) :=
  match cb_scan (Z.to_nat (c_len (q_cb q))) (q_cb q) 0 p with
  | Some (i, x) => match cb_remove (q_cb q) i with
                   | None => None
                   | Some c => Some (mkQ (q_list q) (q_len q) (q_qlen q) (q_mlen q) c, Some x)
                   end
  | None => match list_remove (q_list q) p with
            | Some (x, l) => Some (mkQ l (q_len q - 1) (q_qlen q) (q_mlen q) (q_cb q), Some x)
            | None => Some (q, None)
            end
  end.

(** Consumers: the size of the batch; rtpp_queue_get_items without and with return_on_wake (lines
    434-450), rtpp_queue_get_items_by (lines 452-471); single item gets are batches of one. *)
Inductive mode := MWait | MWake | MTimed.
Definition consumer := (Z * mode)%type.
Record world := mkW { w_q : queue; w_wait : list consumer; w_woken : list consumer }.

Inductive op :=
| Put (x : Z) (sgnl : bool) (pick : nat)      (* pick: whom the signal wakes *)
| Get (ilen : Z) (m : mode)                   (* a call *)
| Resume (woken : bool) (i : nat)             (* a woken consumer runs; a sleeping one wakes up by itself or at its deadline *)
| Match (p : Z -> bool)
| SetQlen (n : Z)
| SetMax (n : Z)
| Pump (pick : nat)
| Wakeup (pick : nat)
| Len.
Inductive obs :=
| OPut (x : Z) (ok : bool)
| OGot (ilen : Z) (items : list Z)
| OEmpty                                      (* a get returns without items *)
| OSleep
| OMatch (p : Z -> bool) (r : option Z)
| OLen (n : Z)
| ONone.

Fixpoint remove_nth {A} (i : nat) (l : list A) : list A :=
  match l, i with
  | [], _ => []
  | _ :: t, O => t
  | x :: t, S i => x :: remove_nth i t
  end.

(** pthread_cond_signal: wakes one of the sleeping consumers, if any *)
Definition signal (w : world) (pick : nat) : world :=
  match w_wait w with
  | [] => w
  | l => let i := (pick mod length l)%nat in
         match nth_error l i with
         | Some c => mkW (w_q w) (remove_nth i l) (w_woken w ++ [c])
         | None => w
         end
  end.

(** A consumer that has the mutex: [fresh] on entry, else after a sleep. *)
Definition consume (w : world) (c : consumer) (fresh : bool) : option (world * obs) :=
  let '(ilen, m) := c in
  if q_clen (w_q w) =? 0 then
    match fresh, m with
    | true, _ | false, MWait => Some (mkW (w_q w) (w_wait w ++ [c]) (w_woken w), OSleep)
    | false, _ => Some (w, OEmpty)
    end
  else match q_extract (w_q w) ilen with
       | None => None
       | Some (q, d) => Some (mkW q (w_wait w) (w_woken w), OGot ilen d)
       end.

(** [None]: an assertion fails or memory is accessed out of bounds *)
Definition step (w : world) (o : op) : option (world * obs) :=
  match o with
  | Put x sgnl pick =>
      let '(q, ok, sig) := q_put (w_q w) x sgnl in
      let w' := mkW q (w_wait w) (w_woken w) in
      Some (if sig then signal w' pick else w', OPut x ok)
  | Get ilen m => consume w (ilen, m) true
  | Resume true i =>
      match nth_error (w_woken w) i with
      | Some c => consume (mkW (w_q w) (w_wait w) (remove_nth i (w_woken w))) c false
      | None => Some (w, ONone)
      end
  | Resume false i =>
      match nth_error (w_wait w) i with
      | Some c => consume (mkW (w_q w) (remove_nth i (w_wait w)) (w_woken w)) c false
      | None => Some (w, ONone)
      end
  | Match p => match q_match (w_q w) p with
               | None => None
               | Some (q, r) => Some (mkW q (w_wait w) (w_woken w), OMatch p r)
               end
  | SetQlen n => let q := w_q w in Some (mkW (mkQ (q_list q) (q_len q) (u32 n) (q_mlen q) (q_cb q)) (w_wait w) (w_woken w), ONone)
  | SetMax n => let q := w_q w in Some (mkW (mkQ (q_list q) (q_len q) (q_qlen q) (u32 n) (q_cb q)) (w_wait w) (w_woken w), ONone)
  | Pump pick => Some (if 0 <? q_clen (w_q w) then signal w pick else w, ONone)
  | Wakeup pick => Some (signal w pick, ONone)
  | Len => Some (w, OLen (q_clen (w_q w)))
  end.

Fixpoint run (w : world) (os : list op) : option (world * list (op * obs)) :=
  match os with
  | [] => Some (w, [])
  | o :: t => match step w o with
              | None => None
              | Some (w1, b) => match run w1 t with Some (w2, tr) => Some (w2, (o, b) :: tr) | None => None end
              end
  end.
Definition world0 (capacity : Z) : world := mkW (q_init capacity) [] [].
