(** Decimal numbers as printed. *)
From Verif Require Import Base NumSpec.

(** [t] is the decimal form of [n]: a minus sign for negative numbers, no leading zeros. *)
Definition dec (n : Z) (t : list Z) : Prop :=
  exists ds, ds <> [] /\ Forall digit ds /\ (hd 48 ds = 48 -> ds = [48]) /\ place_value ds = Z.abs n /\
    t = if n <? 0 then 45 :: ds else ds.
