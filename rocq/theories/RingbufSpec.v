(** What a user of the ring buffer expects, in terms of the history of calls. *)
From Verif Require Import Base RingbufModel.

Section Spec.
  Context {A : Type}.
  (** Elements appended since the last flush, oldest first. *)
  Fixpoint since_flush (acc : list A) (h : list (rb_op A)) : list A :=
    match h with
    | [] => acc
    | RPush x :: t => since_flush (acc ++ [x]) t
    | RFlush :: t => since_flush [] t
    | RLocate _ :: t => since_flush acc t
    end.
  (** The elements the buffer must remember after history [h]: the last [n] appended. *)
  Definition remembered (n : nat) (h : list (rb_op A)) : list A := lastn n (since_flush [] h).
End Spec.
