(** C05: the ring buffer remembers exactly the last N elements. *)
From Verif Require Import Base RingbufModel RingbufSpec RingbufProof.

(** For every capacity [n > 0], initial memory content, history [h] of push/flush/locate
    calls and element [x]: no call writes out of bounds, and locate afterwards finds [x]
    (non-negative result) exactly when [x] is one of the last [n] elements appended since
    the last flush, and returns -1 exactly when it is not. *)
Theorem ringbuf_remembers :
  forall (A : Type) (eqb : A -> A -> bool), (forall x y, eqb x y = true <-> x = y) ->
  forall (n : nat) (zero : A) (h : list (rb_op A)) (x : A), (0 < n)%nat ->
  exists r outs, rb_run eqb (rb_ctor zero n) h = Some (r, outs) /\
    (0 <= rb_locate eqb r x <-> In x (remembered n h)) /\
    (rb_locate eqb r x = -1 <-> ~ In x (remembered n h)).
Proof. intros A eqb He n z h x Hn. exact (ringbuf_remembers_last_n eqb He n z h x Hn). Qed.
Print Assumptions ringbuf_remembers.

(** Concrete case: capacity 2; 3 elements pushed, flush, 3 more; 4 was evicted. *)
Example ringbuf_remembers_ex :
  let h := [RPush 1; RPush 2; RPush 3; RFlush; RPush 4; RPush 5; RPush 6] in
  (0 < 2)%nat /\ remembered 2 h = [5; 6] /\
  match rb_run Z.eqb (rb_ctor 0 2) h with
  | Some (r, _) => rb_locate Z.eqb r 5 = 1 /\ rb_locate Z.eqb r 4 = -1 /\ rb_locate Z.eqb r 0 = -1
  | None => False
  end.
Proof. vm_compute. auto. Qed.
