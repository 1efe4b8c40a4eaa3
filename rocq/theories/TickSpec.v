(** Whole lines on a stream. *)
From Verif Require Import Base Str TickModel.

Definition is_in (s : tst) : Prop := match s with TIn _ _ => True | _ => False end.
Definition op_thread (o : top) : nat := match o with OTicket t _ | OLook t | OPiece t | ORelease t => t end.

(** The stream has the first lines asked for, one after the other, and after them a part of the next *)
Definition whole_lines (s : tl) : Prop :=
  exists done rest part, asked s = done ++ rest /\ strm s = concat done ++ part
    /\ match rest with [] => part = [] | l :: _ => exists left, l = part ++ left end.

(** levels from the least to the most severe *)
Definition levels : list (list Z * Z) := [(B "DBUG", 7); (B "INFO", 6); (B "WARN", 4); (B "ERR", 3); (B "CRIT", 2)].
(** the same character, or the same letter in the two cases *)
Definition same_letter (x y : Z) : Prop := x = y \/ (65 <= x <= 90 /\ y = x + 32) \/ (65 <= y <= 90 /\ x = y + 32).
