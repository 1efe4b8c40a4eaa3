(** Model of src/rtpp_ringbuf.c *)
From Verif Require Import Base.

Section Ringbuf.
  (** Elements are opaque [el_size]-byte values; [eqb] is [memcmp(..) == 0]. *)
  Context {A : Type} (eqb : A -> A -> bool).

  (** struct rtpp_ringbuf_priv, src/rtpp_ringbuf.c:40-48. [rb_el] has [nelements]
      entries; the [el_size] arithmetic is folded into the element type. *)
  Record ringbuf := mkRB { rb_el : list A; rb_c : nat; rb_full : bool }.

  (** rtpp_ringbuf_ctor, src/rtpp_ringbuf.c:61-82 ([zero] is the all-zero element
      that rtpp_zmalloc leaves in every slot). *)
  Definition rb_ctor (zero : A) (n : nat) : ringbuf := mkRB (repeat zero n) 0 false.

  (** rtpp_ringbuf_push, src/rtpp_ringbuf.c:92-108. [None] is the out of bounds
      memcpy (slot index not below the number of slots). *)
  Definition rb_push (r : ringbuf) (x : A) : option ringbuf :=
    if (rb_c r <? length (rb_el r))%nat then
      let el := upd (rb_el r) (rb_c r) x in
      let c := S (rb_c r) in
      if (c =? length (rb_el r))%nat then Some (mkRB el 0 true)
      else Some (mkRB el c (rb_full r))
    else None.

  (** rtpp_ringbuf_flush, src/rtpp_ringbuf.c:110-118 *)
  Definition rb_flush (r : ringbuf) : ringbuf := mkRB (rb_el r) 0 false.

  (** the loop of rtpp_ringbuf_locate, src/rtpp_ringbuf.c:129-135 *)
  Fixpoint rb_scan (l : list A) (x : A) (i : Z) : Z :=
    match l with
    | [] => -1
    | y :: t => if eqb y x then i else rb_scan t x (i + 1)
    end.

  (** rtpp_ringbuf_locate, src/rtpp_ringbuf.c:120-136 *)
  Definition rb_locate (r : ringbuf) (x : A) : Z :=
    let last_el := if rb_full r then length (rb_el r) else rb_c r in
    rb_scan (firstn last_el (rb_el r)) x 0.

  Inductive rb_op := RPush (x : A) | RFlush | RLocate (x : A).

  (** One API call; the output is the result of locate. *)
  Definition rb_step (r : ringbuf) (o : rb_op) : option (ringbuf * option Z) :=
    match o with
    | RPush x => match rb_push r x with Some r' => Some (r', None) | None => None end
    | RFlush => Some (rb_flush r, None)
    | RLocate x => Some (r, Some (rb_locate r x))
    end.

  Fixpoint rb_run (r : ringbuf) (os : list rb_op) : option (ringbuf * list (option Z)) :=
    match os with
    | [] => Some (r, [])
    | o :: t =>
        match rb_step r o with
        | None => None
        | Some (r', out) =>
            match rb_run r' t with
            | None => None
            | Some (r'', outs) => Some (r'', out :: outs)
            end
        end
    end.
End Ringbuf.
Arguments rb_op : clear implicits.
Arguments ringbuf : clear implicits.
