(** What an allocator gives, and what an object with a counter is. *)
From Verif Require Import Base MallModel.

Definition power_of_2 (a : Z) : Prop := exists k, 0 <= k < 64 /\ a = 2 ^ k.
(** posix_memalign(): addresses are multiples of the alignment; [given p n] says that the caller has the [n] bytes at [p] *)
Definition allocator (memalign : Z -> Z -> option Z) (given : Z -> Z -> Prop) : Prop :=
  forall a n p, memalign a n = Some p -> 0 < p /\ p mod a = 0 /\ given p n.

(** The object of [msize] bytes and the counter of [osize] bytes after it are in the bytes given, aligned and apart,
    and the pointer to the counter is in the object *)
Record laid_out (oalign osize msize offs : Z) (given : Z -> Z -> Prop) (m : memory) (o : object) : Prop := LaidOut {
  lo_object : o_ptr o mod oalign = 0;
  lo_counter : o_cnt o mod oalign = 0;
  lo_apart : o_ptr o + msize <= o_cnt o < o_ptr o + msize + oalign;
  lo_given : exists n, given (o_ptr o) n /\ o_cnt o + osize = o_ptr o + n;
  lo_pointer : forall x, o_ptr o + offs <= x < o_ptr o + offs + 8 -> m x = o_cnt o;
  lo_zero : forall x, o_cnt o <= x < o_cnt o + osize -> m x = 0 }.

(** no byte but those of the object and of its counter is changed *)
Definition others_kept (m m' : memory) (o : object) (osize : Z) : Prop := forall x, ~ (o_ptr o <= x < o_cnt o + osize) -> m' x = m x.
