(** Model of src/rtpp_sbuf.c *)
From Verif Require Import Base.

(** struct rtpp_sbuf, src/rtpp_sbuf.h:30-34: the allocated block [sb_mem] ([alen] is its
    length), its address [sb_bp] and the write pointer [sb_cp]. Bytes are [Z]. *)
Record sbuf := mkSbuf { sb_mem : list Z; sb_bp : Z; sb_cp : Z }.

(** RS_ULEN, src/rtpp_sbuf.h:40 *)
Definition rs_ulen (b : sbuf) : Z := sb_cp b - sb_bp b.

(** A store through a pointer at offset [off] of the block. *)
Definition storez (m : list Z) (off : Z) (bs : list Z) : option (list Z) :=
  if off <? 0 then None else store m (Z.to_nat off) bs.

(** Results; [SbAbort] is a failed assertion, [SbOOB] an access outside the block. *)
Inductive sb_res := SBW_OK | SBW_ERR | SBW_SHRT.
Inductive sb_out (A : Type) := SbRet (a : A) | SbAbort | SbOOB.
Arguments SbRet {A}. Arguments SbAbort {A}. Arguments SbOOB {A}.

(** What libc's vsnprintf produces for the format and arguments: [FmtOk s] the complete output,
    [FmtErr junk] a negative result with [junk] possibly left in the destination. *)
Inductive fmt := FmtOk (s : list Z) | FmtErr (junk : list Z).

(** vsnprintf(cp, len, ..): stores as much as fits in [len] bytes, always with a NUL, and
    returns the length of the complete output. ISO C 7.21.6.12. On error the standard leaves the
    destination unspecified: any [junk] of at most [len] bytes. *)
Definition vsnprintf (m : list Z) (at_ : Z) (len : nat) (f : fmt) : option (list Z * Z) :=
  match f with
  | FmtOk s =>
      match storez m at_ (firstn (len - 1) s ++ [0]) with
      | Some m' => Some (m', Z.of_nat (length s))
      | None => None
      end
  | FmtErr junk =>
      match storez m at_ (firstn len junk) with
      | Some m' => Some (m', -1)
      | None => None
      end
  end.

(** rtpp_sbuf_write, src/rtpp_sbuf.c:40-60 *)
Definition sbuf_write (b : sbuf) (f : fmt) : sb_out (sbuf * sb_res) :=
  let len := Z.of_nat (length (sb_mem b)) - rs_ulen b in
  if 0 <? len then
    match vsnprintf (sb_mem b) (rs_ulen b) (Z.to_nat len) f with
    | None => SbOOB
    | Some (m, rlen) =>
        if rlen <? 0 then SbRet (mkSbuf m (sb_bp b) (sb_cp b), SBW_ERR)
        else if rlen >=? len then
          match storez m (rs_ulen b) [0] with
          | Some m' => SbRet (mkSbuf m' (sb_bp b) (sb_cp b), SBW_SHRT)
          | None => SbOOB
          end
        else SbRet (mkSbuf m (sb_bp b) (sb_cp b + rlen), SBW_OK)
    end
  else SbAbort.

(** rtpp_sbuf_ctor, src/rtpp_sbuf.c:63-90; [raw] is the content malloc(ilen) returns (its
    length is [ilen]), at address [a]. Allocation failure (NULL result) is left out. *)
Definition sbuf_ctor (raw : list Z) (a : Z) : sb_out sbuf :=
  match storez raw 0 [0] with Some m => SbRet (mkSbuf m a a) | None => SbOOB end.

(** rtpp_sbuf_extend, src/rtpp_sbuf.c:109-133: [Some (nbp, g)]: realloc returns address [nbp]
    and leaves [g i] in the i-th added byte; [None] is a failed realloc (-1). *)
Definition sbuf_extend (b : sbuf) (nlen : nat) (more : option (Z * (nat -> Z))) : sb_out (sbuf * bool) :=
  if (length (sb_mem b) <? nlen)%nat then
    match more with
    | None => SbRet (b, false)
    | Some (nbp, g) =>
        let m := sb_mem b ++ map g (seq 0 (nlen - length (sb_mem b))) in
        if negb (sb_bp b =? nbp) then
          let ncp := nbp + rs_ulen b in SbRet (mkSbuf m nbp ncp, true)
        else SbRet (mkSbuf m (sb_bp b) (sb_cp b), true)
    end
  else SbAbort.

(** rtpp_sbuf_reset, src/rtpp_sbuf.c:211-217 *)
Definition sbuf_reset (b : sbuf) : sb_out sbuf :=
  match storez (sb_mem b) 0 [0] with Some m => SbRet (mkSbuf m (sb_bp b) (sb_bp b)) | None => SbOOB end.

Inductive sb_op :=
| SWrite (f : fmt)
| SExtend (nlen : nat) (more : option (Z * (nat -> Z)))
| SReset.

(** One API call; [None] in the result for calls without a write result. *)
Definition sbuf_step (b : sbuf) (o : sb_op) : sb_out (sbuf * option sb_res) :=
  match o with
  | SWrite f => match sbuf_write b f with
                | SbRet (b', r) => SbRet (b', Some r) | SbAbort => SbAbort | SbOOB => SbOOB end
  | SExtend n more => match sbuf_extend b n more with
                      | SbRet (b', _) => SbRet (b', None) | SbAbort => SbAbort | SbOOB => SbOOB end
  | SReset => match sbuf_reset b with
              | SbRet b' => SbRet (b', None) | SbAbort => SbAbort | SbOOB => SbOOB end
  end.

Fixpoint sbuf_run (b : sbuf) (os : list sb_op) : sb_out (sbuf * list (option sb_res)) :=
  match os with
  | [] => SbRet (b, [])
  | o :: t =>
      match sbuf_step b o with
      | SbRet (b', r) =>
          match sbuf_run b' t with
          | SbRet (b'', rs) => SbRet (b'', r :: rs)
          | SbAbort => SbAbort
          | SbOOB => SbOOB
          end
      | SbAbort => SbAbort
      | SbOOB => SbOOB
      end
  end.
