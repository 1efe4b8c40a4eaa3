(** C10: what a growable string buffer is, without memory. *)
From Verif Require Import Base SbufModel.

(** The C string in a block: the bytes before the first NUL; [None] if there is none. *)
Fixpoint cstr (m : list Z) : option (list Z) :=
  match m with
  | [] => None
  | b :: t => if b =? 0 then Some []
              else match cstr t with Some s => Some (b :: s) | None => None end
  end.

(** Abstract state: content and capacity. *)
Definition sb_abs : Type := (list Z * nat)%type.

(** A write succeeds exactly when content, new text and the terminator fit. *)
Definition sb_spec_step (a : sb_abs) (o : sb_op) : sb_abs * option sb_res :=
  let (c, cap) := a in
  match o with
  | SWrite (FmtOk s) =>
      if (length c + length s + 1 <=? cap)%nat then ((c ++ s, cap), Some SBW_OK)
      else ((c, cap), Some SBW_SHRT)
  | SWrite (FmtErr _) => ((c, cap), Some SBW_ERR)
  | SExtend n (Some _) => ((c, n), None)
  | SExtend n None => ((c, cap), None)
  | SReset => (([], cap), None)
  end.

Fixpoint sb_spec (a : sb_abs) (os : list sb_op) : sb_abs * list (option sb_res) :=
  match os with
  | [] => (a, [])
  | o :: t => let (a', r) := sb_spec_step a o in
              let (a'', rs) := sb_spec a' t in (a'', r :: rs)
  end.

(** Callers' obligations: printed text has no NUL byte in it, extend asks for more than there
    is. *)
Fixpoint sb_valid (cap : nat) (os : list sb_op) : Prop :=
  match os with
  | [] => True
  | SWrite (FmtOk s) :: t => ~ In 0 s /\ sb_valid cap t
  | SWrite (FmtErr _) :: t => sb_valid cap t
  | SExtend n more :: t => (cap < n)%nat /\ sb_valid (match more with Some _ => n | None => cap end) t
  | SReset :: t => sb_valid cap t
  end.

(** The most recent write or reset of the history was not a failed (negative) vsnprintf. *)
Fixpoint sb_clean (ok : bool) (os : list sb_op) : bool :=
  match os with
  | [] => ok
  | SWrite (FmtOk _) :: t => sb_clean true t
  | SWrite (FmtErr _) :: t => sb_clean false t
  | SExtend _ _ :: t => sb_clean ok t
  | SReset :: t => sb_clean true t
  end.
