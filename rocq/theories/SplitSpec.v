(** Grammar of a control message (C20, C21). *)
From Verif Require Import Base.

(** Separators: tab, new line, carriage return, space. *)
Definition sep (c : Z) : Prop := c = 9 \/ c = 10 \/ c = 13 \/ c = 32.

(** [tokens s ts]: [ts] are the maximal runs of non-separators of [s], in order. *)
Inductive tokens : list Z -> list (list Z) -> Prop :=
| tokens_nil : tokens [] []
| tokens_sep c s ts : sep c -> tokens s ts -> tokens (c :: s) ts
| tokens_run w s ts : w <> [] -> Forall (fun c => ~ sep c) w -> (s = [] \/ exists c t, s = c :: t /\ sep c) ->
    tokens s ts -> tokens (w ++ s) (w :: ts).

Definition ampamp : list Z := [38; 38].

(** [segments ts segs]: [segs] is [ts] cut at the tokens "&&". *)
Inductive segments : list (list Z) -> list (list (list Z)) -> Prop :=
| seg_one ts : Forall (fun t => t <> ampamp) ts -> segments ts [ts]
| seg_more ts rest segs : Forall (fun t => t <> ampamp) ts -> segments rest segs -> segments (ts ++ ampamp :: rest) (ts :: segs).

(** A well-formed message: a cookie first in datagram mode; then the command and up to 15
    sub-commands separated by "&&", each of 1 to 23 tokens; no NUL byte inside of a token. *)
Definition well_formed (umode : bool) (ts : list (list Z)) (cookie : option (list Z)) (args : list (list Z)) (subc : list (list (list Z))) : Prop :=
  exists body, ts = (match cookie with Some c => [c] | None => [] end) ++ body /\
    (umode = true <-> cookie <> None) /\ segments body (args :: subc) /\
    Forall (fun seg => (1 <= length seg <= 23)%nat) (args :: subc) /\ (length subc <= 15)%nat /\
    Forall (fun t => ~ In 0 t) ts.
