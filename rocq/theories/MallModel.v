(** Model of the allocation of objects with their reference counter.
    Code: src/rtpp_mallocs.c.  This is the build without RTPP_CHECK_LEAKS. *)
From Verif Require Import Base.

(** memory as a function from addresses, for memset() and for stores of rtpp_mallocs.c:72, 105, 108, 140, 142; a range set to 0 (memset), and a pointer stored (8 bytes; simplification: each of its
    bytes reads as the whole value) *)
Definition memory := Z -> Z.
Definition zero (a n : Z) (m : memory) : memory := fun x => if (a <=? x) && (x <? a + n) then 0 else m x.
Definition store (a v : Z) (m : memory) : memory := fun x => if (a <=? x) && (x <? a + 8) then v else m x.

(** rtpp_aligned_malloc (rtpp_mallocs.c:41-54): the alignment and the size that posix_memalign() is asked for *)
Definition aligned_request (msize alignment : Z) : Z * Z := (if alignment <? 8 then 8 else alignment, msize).

Section Alloc.
  (** rtpp_refcnt_oalign and rtpp_refcnt_osize; posix_memalign(): the address for an alignment and a size, or none *)
  Context (oalign osize : Z) (memalign : Z -> Z -> option Z).
  Definition aligned_malloc (msize alignment : Z) : option Z := let (a, n) := aligned_request msize alignment in memalign a n.

  (** rtpp_zmalloc (rtpp_mallocs.c:57-75) *)
  Definition zmalloc (msize : Z) (m : memory) : memory * option Z :=
    match aligned_malloc msize oalign with
    | Some p => (zero p msize m, Some p)
    | None => (m, None)
    end.

  (** rtpp_mallocs.c:95-96, 129-130: size_t has 64 bits *)
  Definition pad_size (msize : Z) : Z := Z.land (u64 (oalign - Z.land msize (oalign - 1))) (oalign - 1).
  Definition asize (msize : Z) : Z := u64 (msize + pad_size msize + osize).

  (** rtpp_mallocs.c:79-111 and 113-145, what rtpp_rzmalloc and rtpp_rmalloc make: the object, its counter and the memory.  Simplification: the counter
      made by rtpp_refcnt_ctor_pa() in the place given to it (C09) is the place itself *)
  Record object := Object { o_ptr : Z; o_cnt : Z }.
  Definition rzmalloc (msize offs : Z) (m : memory) : memory * option object :=
    match aligned_malloc (asize msize) oalign with
    | None => (m, None)
    | Some p =>
        let m := zero p (asize msize) m in
        let rco := p + msize + pad_size msize in
        (store (p + offs) rco m, Some (Object p rco))
    end.
  Definition rmalloc (msize offs : Z) (m : memory) : memory * option object :=
    match aligned_malloc (asize msize) oalign with
    | None => (m, None)
    | Some p =>
        let rco := p + msize + pad_size msize in
        let m := zero rco osize m in
        (store (p + offs) rco m, Some (Object p rco))
    end.
End Alloc.
