(** What a conversion of time should do. *)
From Verif Require Import Base TimeModel.

(** What POSIX calls a valid timespec (max = 10^9) or timeval (max = 10^6) *)
Definition valid_tm (max : Z) (t : tm) : Prop := let '(Tm s f) := t in 0 <= s /\ 0 <= f < max.
(** [t], in units of 1/max second, is within 0.501 units of the double [m * 2^e]; everything multiplied by 2^max(0,-e) *)
Definition close (max : Z) (d : dbl) (t : tm) : Prop :=
  let '(Tm s f) := t in
  let one := 2 ^ Z.max 0 (- d_e d) in
  1000 * Z.abs ((s * max + f) * one - max * (d_m d * 2 ^ Z.max 0 (d_e d))) <= 501 * one.
(** At least [n] seconds *)
Definition at_least (n : Z) (d : dbl) : Prop := n * 2 ^ Z.max 0 (- d_e d) <= d_m d * 2 ^ Z.max 0 (d_e d).
Definition below (n : Z) (d : dbl) : Prop := d_m d * 2 ^ Z.max 0 (d_e d) < n * 2 ^ Z.max 0 (- d_e d).
(** Not within 0.500001 ns of the next second *)
Definition not_close_to_full (d : dbl) : Prop :=
  let one := 2 ^ Z.max 0 (- d_e d) in
  1000000000000000 * (d_m d * 2 ^ Z.max 0 (d_e d) mod one) <= 999999999499999 * one.
